(** * The directional filters in binary64 *)

From Coq Require Import ZArith Reals List Bool.
From Coquelicot Require Import Complex.
From Flocq Require Import Core IEEE754.BinarySingleNaN.
Import ListNotations.
From Verif Require Import Py ModelSamples ModelFilters ModelFloat ModelFloatDir Spec SpecQuad SpecFp SpecFpDir.
From Verif Require Import FloatDirFilterProps.
Import ListNotations.
Open Scope Z_scope.

(** ** C66: the directional filters *)
(** whenever the axisymmetric filters are computed and the powers of two are floats, the directional ones are computed, whatever the library's loggamma; *)
(** the normalisations for a nonzero spin never divide by zero *)
Theorem C66_filters_return : forall fexp fpow flg J L N J_min lam spin spin0, 1 <= L <= 2 ^ 52 -> float_powers L N ->
  (forall k, filters_axisym_fp fexp fpow J L J_min lam = Ok k ->
     exists psi phi, filters_directional_fp fexp fpow flg J L N J_min lam spin spin0 = Ok (psi, phi) /\
       shape3 psi = [J + 1; L; 2 * L - 1] /\ shape1 phi = [L]) /\
  (forall k, filters_axisym_vectorised_fp fexp fpow J L J_min lam = Ok k ->
     exists psi phi, filters_directional_vectorised_fp fexp fpow flg J L N J_min lam spin 0 = Ok (psi, phi) /\
       shape3 psi = [J + 1; L; 2 * L - 1] /\ shape1 phi = [L]).
Proof. exact fp_dirf_return. Qed.
Print Assumptions C66_filters_return.

(** for lam = 2 they do not raise *)
Theorem C66_default_dilation_never_raises : forall fexp fpow flg J L N J_min spin spin0, 1 <= L <= 2 ^ 52 -> float_powers L N -> 0 <= J_min < J -> exact_powers fpow J ->
  (exists r, filters_directional_fp fexp fpow flg J L N J_min (fint 2) spin spin0 = Ok r) /\
  (exists r, filters_directional_vectorised_fp fexp fpow flg J L N J_min (fint 2) spin 0 = Ok r).
Proof. exact fp2_dirf_total. Qed.
Print Assumptions C66_default_dilation_never_raises.

(** ** C87: too many directions *)
(** the directional component: Python converts 2**gamma to a float, and raises if it is too large *)
Theorem C87_component_overflow : forall flg fexp L N, 1 <= L ->
  ((exists s, tiling_direction_fp flg fexp L N = Ok s) <-> float_powers L N) /\
  (~ float_powers L N -> tiling_direction_fp flg fexp L N = Err OverflowError).
Proof. exact fp_dir_overflow. Qed.
Print Assumptions C87_component_overflow.

(** so both filters raise, where the axisymmetric ones are computed *)
Theorem C87_numpy_directions_overflow : forall fexp fpow flg J L N J_min lam spin spin0, 1 <= L -> 0 <= J -> ~ float_powers L N ->
  (forall k, filters_axisym_fp fexp fpow J L J_min lam = Ok k ->
     filters_directional_fp fexp fpow flg J L N J_min lam spin spin0 = Err OverflowError) /\
  (forall k, filters_axisym_vectorised_fp fexp fpow J L J_min lam = Ok k ->
     filters_directional_vectorised_fp fexp fpow flg J L N J_min lam spin 0 = Err OverflowError).
Proof. exact fp_dirf_overflow. Qed.
Print Assumptions C87_numpy_directions_overflow.

(** with lam = 2 the filters are returned exactly if the powers of two are floats *)
Theorem C87_numpy_directions_iff : forall fexp fpow flg J L N J_min spin spin0, 1 <= L <= 2 ^ 52 -> 0 <= J_min < J -> exact_powers fpow J ->
  ((exists r, filters_directional_fp fexp fpow flg J L N J_min (fint 2) spin spin0 = Ok r) <-> float_powers L N) /\
  ((exists r, filters_directional_vectorised_fp fexp fpow flg J L N J_min (fint 2) spin 0 = Ok r) <-> float_powers L N).
Proof. exact fp2_dirf_iff. Qed.
Print Assumptions C87_numpy_directions_iff.

(** L = 2048 (J = 11), lam = 2: 1025 directions overflow, 1024 do not *)
Example C87_example : exists fexp fpow flg, exact_powers fpow 11 /\ j_max 2048 2 = Ok 11 /\
  filters_directional_fp fexp fpow flg 11 2048 1025 0 (fint 2) 0 0 = Err OverflowError /\
  filters_directional_vectorised_fp fexp fpow flg 11 2048 1025 0 (fint 2) 0 0 = Err OverflowError /\
  (exists r, filters_directional_fp fexp fpow flg 11 2048 1024 0 (fint 2) 0 0 = Ok r).
Proof. exact ex_c87. Qed.

(** zero below the spins and outside the azimuthal band-limit, exactly and whatever the library *)
Theorem C66_support : forall fexp fpow flg J L N J_min lam spin spin0 psi phi, 1 <= L <= 2 ^ 52 ->
  filters_directional_fp fexp fpow flg J L N J_min lam spin spin0 = Ok (psi, phi) \/
  filters_directional_vectorised_fp fexp fpow flg J L N J_min lam spin spin0 = Ok (psi, phi) ->
  forall l, 0 <= l < L ->
    (B2R (get1 phi l) <> 0%R -> Z.abs spin <= l /\ Z.abs spin0 <= l) /\
    (forall j m, 0 <= j <= J -> Z.abs m < L -> cval (get3 psi j l (L - 1 + m)) <> RtoC 0 ->
       1 <= l /\ Z.abs spin <= l /\ Z.abs spin0 <= l /\ Z.abs m <= l /\ Z.abs m <= N - 1 /\ Z.even (m - (N - 1)) = true).
Proof. exact fp_dirf_support. Qed.
Print Assumptions C66_support.

(** the filters are exactly even in the order, so their reality condition holds without error *)
Theorem C66_even_in_the_order : forall fexp fpow flg J L N J_min lam spin spin0 psi phi, accurate_loggamma flg -> relative_exp fexp -> 1 <= L <= 2 ^ 52 -> 1 <= N <= 41 ->
  filters_directional_fp fexp fpow flg J L N J_min lam spin spin0 = Ok (psi, phi) \/
  filters_directional_vectorised_fp fexp fpow flg J L N J_min lam spin spin0 = Ok (psi, phi) ->
  forall j l m, 0 <= j <= J -> 0 <= l < L -> Z.abs m < L -> get3 psi j l (L - 1 - m) = get3 psi j l (L - 1 + m).
Proof. exact fp_dirf_even. Qed.
Print Assumptions C66_even_in_the_order.

(** each coefficient against the exact product of the weight, the computed kernel and the exact component *)
Theorem C66_coefficients_accurate : forall fexp fpow flg J L N J_min lam spin kpsi kphi psi phi s,
  accurate_loggamma flg -> relative_exp fexp -> 1 <= L <= 2 ^ 52 -> 1 <= N <= 41 ->
  (filters_axisym_fp fexp fpow J L J_min lam = Ok (kpsi, kphi) /\ filters_directional_fp fexp fpow flg J L N J_min lam spin 0 = Ok (psi, phi)) \/
  (filters_axisym_vectorised_fp fexp fpow J L J_min lam = Ok (kpsi, kphi) /\ filters_directional_vectorised_fp fexp fpow flg J L N J_min lam spin 0 = Ok (psi, phi)) ->
  tiling_direction L N = Ok s ->
  forall l, Z.abs spin <= l < L ->
    (is_finite (get1 kphi l) = true -> let w := (sqrt ((2 * IZR l + 1) / (4 * PI)) * B2R (get1 kphi l))%R in
       is_finite (get1 phi l) = true /\ (Rabs (B2R (get1 phi l) - w) <= bpow radix2 (-50) * w)%R) /\
    (forall j m, J_min <= j <= J -> Z.abs m < L -> is_finite (get2 kpsi j l) = true ->
       let w := (sqrt ((2 * IZR l + 1) / (8 * PI ^ 2)) * B2R (get2 kpsi j l))%R in
       let z := get3 psi j l (L - 1 + m) in let t := Cmult (RtoC w) (get2 s l (L - 1 + m)) in
       is_finite (fst z) = true /\ is_finite (snd z) = true /\ (Cmod (Cminus (cval z) t) <= bpow radix2 (-49) * Cmod t)%R).
Proof. exact fp_dirf_acc. Qed.
Print Assumptions C66_coefficients_accurate.

(** the normalised squares of the directional filters sum to the same as those of the axisymmetric filters *)
Theorem C66_total : forall fexp fpow flg J L N J_min lam spin kpsi kphi psi phi,
  accurate_loggamma flg -> relative_exp fexp -> 1 <= L <= 2 ^ 52 -> 1 <= N <= 41 ->
  (filters_axisym_fp fexp fpow J L J_min lam = Ok (kpsi, kphi) /\ filters_directional_fp fexp fpow flg J L N J_min lam spin 0 = Ok (psi, phi)) \/
  (filters_axisym_vectorised_fp fexp fpow J L J_min lam = Ok (kpsi, kphi) /\ filters_directional_vectorised_fp fexp fpow flg J L N J_min lam spin 0 = Ok (psi, phi)) ->
  forall l, 1 <= l -> Z.abs spin <= l < L -> is_finite (get1 kphi l) = true -> (forall j, J_min <= j <= J -> is_finite (get2 kpsi j l) = true) ->
    (Rabs (fp_dir_total L psi phi J_min J l - fp_total kpsi kphi J_min J l) <= bpow radix2 (-48) * fp_total kpsi kphi J_min J l)%R.
Proof. exact fp_dirf_total. Qed.
Print Assumptions C66_total.

(** with lam = 2 the directional filters are admissible up to the quadrature and rounding errors *)
Theorem C66_looped_filters_admissible : forall fexp fpow flg J L N J_min spin psi phi, 1 <= L <= 2 ^ 52 -> 1 <= N <= 41 ->
  accurate_loggamma flg -> relative_exp fexp -> accurate_exp fexp -> exact_powers fpow J -> j_max L 2 = Ok J ->
  filters_directional_fp fexp fpow flg J L N J_min (fint 2) spin 0 = Ok (psi, phi) ->
  forall l, Z.abs spin <= l < L ->
    (1 - bpow radix2 (-47) <= fp_dir_total L psi phi J_min J l <= 1 + 3 * quad_error 2 300 + bpow radix2 (-31))%R.
Proof. exact fp2_dirf_adm. Qed.
Print Assumptions C66_looped_filters_admissible.

Theorem C66_vectorised_filters_admissible : forall fexp fpow flg J L N J_min spin psi phi, 1 <= L <= 2 ^ 52 -> 1 <= N <= 41 ->
  accurate_loggamma flg -> relative_exp fexp -> accurate_exp fexp -> exact_powers fpow J -> j_max L 2 = Ok J ->
  filters_directional_vectorised_fp fexp fpow flg J L N J_min (fint 2) spin 0 = Ok (psi, phi) ->
  forall l, Z.abs spin <= l < L ->
    (1 - bpow radix2 (-47) <= fp_dir_total L psi phi J_min J l <= 1 + quad_error 2 300 + bpow radix2 (-33))%R.
Proof. exact fp2_dirf_adm_vec. Qed.
Print Assumptions C66_vectorised_filters_admissible.

(** and every coefficient is a number *)
Theorem C66_default_dilation_finite : forall fexp fpow flg J L N J_min spin psi phi, 1 <= L <= 2 ^ 52 -> 1 <= N <= 41 ->
  accurate_loggamma flg -> relative_exp fexp -> accurate_exp fexp -> exact_powers fpow J -> j_max L 2 = Ok J ->
  filters_directional_fp fexp fpow flg J L N J_min (fint 2) spin 0 = Ok (psi, phi) \/
  filters_directional_vectorised_fp fexp fpow flg J L N J_min (fint 2) spin 0 = Ok (psi, phi) ->
  forall l, Z.abs spin <= l < L ->
    is_finite (get1 phi l) = true /\
    forall j m, J_min <= j <= J -> Z.abs m < L -> is_finite (fst (get3 psi j l (L - 1 + m))) = true /\ is_finite (snd (get3 psi j l (L - 1 + m))) = true.
Proof. exact fp2_dirf_finite. Qed.
Print Assumptions C66_default_dilation_finite.

(** lam = 2, L = 5, N = 3, spin 1: a library meets all the hypotheses, and the filters are returned *)
Example C66_example : exists fexp fpow flg psi phi vpsi vphi, accurate_loggamma flg /\ relative_exp fexp /\ accurate_exp fexp /\ exact_powers fpow 3 /\ j_max 5 2 = Ok 3 /\
  filters_directional_fp fexp fpow flg 3 5 3 0 (fint 2) 1 0 = Ok (psi, phi) /\
  filters_directional_vectorised_fp fexp fpow flg 3 5 3 0 (fint 2) 1 0 = Ok (vpsi, vphi) /\
  (999 / 1000 <= fp_dir_total 5 vpsi vphi 0 3 2 <= 1 + 1 / 100)%R /\ is_finite (get1 vphi 2) = true.
Proof. exact ex_fp_dirf. Qed.
