(** * Many directions in binary64 *)

From Coq Require Import ZArith Reals List Bool.
From Coquelicot Require Import Complex.
From Flocq Require Import Core IEEE754.BinarySingleNaN.
Import ListNotations.
From Verif Require Import Py ModelSamples ModelFilters ModelFloat ModelFloatDir Spec SpecQuad SpecFp SpecFpDir SpecFpMany.
From Verif Require Import FloatManyProps.
Import ListNotations.
Open Scope Z_scope.

(** ** C86: many directions *)
Theorem C86_binomial : forall flg fexp (n k : nat), accurate_loggamma_to 1023 flg -> relative_exp_to (7093 / 10) fexp -> (k <= n <= 1023)%nat ->
  let b := binomial_fp flg fexp (Z.of_nat n) (fint (Z.of_nat k)) in
  is_finite b = true /\ (Rabs (B2R b - Binomial.C n k) <= bpow radix2 (-31) * Binomial.C n k)%R /\
  (Binomial.C n k <= bpow radix2 31 -> B2R b = Binomial.C n k)%R.
Proof. exact fp_binomial_many. Qed.
Print Assumptions C86_binomial.

(** every entry of the directional component has a relative error of at most 2^-30 *)
Theorem C86_component : forall flg fexp L N, accurate_loggamma_to 1023 flg -> relative_exp_to (7093 / 10) fexp -> 1 <= L -> 1 <= N -> float_powers L N ->
  exists sf s, tiling_direction_fp flg fexp L N = Ok sf /\ tiling_direction L N = Ok s /\ shape2 sf = shape2 s /\
    forall l m, 0 <= l < L -> Z.abs m < L -> let z := get2 sf l (L - 1 + m) in let t := get2 s l (L - 1 + m) in
      is_finite (fst z) = true /\ is_finite (snd z) = true /\ (Cmod (cval z - t)%C <= bpow radix2 (-30) * Cmod t)%R.
Proof. exact fp_dir_many. Qed.
Print Assumptions C86_component.

(** so it stays normalised *)
Theorem C86_component_normalised : forall flg fexp L N s, accurate_loggamma_to 1023 flg -> relative_exp_to (7093 / 10) fexp -> 1 <= L -> 1 <= N ->
  tiling_direction_fp flg fexp L N = Ok s ->
  forall l, 1 <= l < L -> (Rabs (sumZ (- l) (l + 1) (fun m => Cmod (cval (get2 s l (L - 1 + m))) ^ 2) - 1) <= bpow radix2 (-29))%R.
Proof. exact fp_dir_many_norm. Qed.
Print Assumptions C86_component_normalised.

(** each coefficient against the exact product of the weight, the computed kernel and the exact component *)
Theorem C86_coefficients : forall fexp fpow flg J L N J_min lam spin kpsi kphi psi phi s,
  accurate_loggamma_to 1023 flg -> relative_exp_to (7093 / 10) fexp -> 1 <= L <= 2 ^ 52 -> 1 <= N -> N <= 900 \/ L <= 900 ->
  (filters_axisym_fp fexp fpow J L J_min lam = Ok (kpsi, kphi) /\ filters_directional_fp fexp fpow flg J L N J_min lam spin 0 = Ok (psi, phi)) \/
  (filters_axisym_vectorised_fp fexp fpow J L J_min lam = Ok (kpsi, kphi) /\ filters_directional_vectorised_fp fexp fpow flg J L N J_min lam spin 0 = Ok (psi, phi)) ->
  tiling_direction L N = Ok s ->
  forall l, Z.abs spin <= l < L ->
    (is_finite (get1 kphi l) = true -> let w := (sqrt ((2 * IZR l + 1) / (4 * PI)) * B2R (get1 kphi l))%R in
       is_finite (get1 phi l) = true /\ (Rabs (B2R (get1 phi l) - w) <= bpow radix2 (-50) * w)%R) /\
    (forall j m, J_min <= j <= J -> Z.abs m < L -> is_finite (get2 kpsi j l) = true ->
       let w := (sqrt ((2 * IZR l + 1) / (8 * PI ^ 2)) * B2R (get2 kpsi j l))%R in
       let z := get3 psi j l (L - 1 + m) in let t := Cmult (RtoC w) (get2 s l (L - 1 + m)) in
       is_finite (fst z) = true /\ is_finite (snd z) = true /\ (Cmod (Cminus (cval z) t) <= bpow radix2 (-30) * Cmod t)%R).
Proof. exact fp_dirf_acc_many. Qed.
Print Assumptions C86_coefficients.

(** with lam = 2 the directional filters are admissible up to the quadrature error and 2^-28 *)
Theorem C86_filters_admissible : forall fexp fpow flg J L N J_min spin psi phi, 1 <= L <= 2 ^ 52 -> 1 <= N -> N <= 900 \/ L <= 900 ->
  accurate_loggamma_to 1023 flg -> relative_exp_to (7093 / 10) fexp -> accurate_exp fexp -> exact_powers fpow J -> j_max L 2 = Ok J ->
  forall l, Z.abs spin <= l < L ->
  (filters_directional_vectorised_fp fexp fpow flg J L N J_min (fint 2) spin 0 = Ok (psi, phi) ->
     (1 - bpow radix2 (-29) <= fp_dir_total L psi phi J_min J l <= 1 + quad_error 2 300 + bpow radix2 (-28))%R) /\
  (filters_directional_fp fexp fpow flg J L N J_min (fint 2) spin 0 = Ok (psi, phi) ->
     (1 - bpow radix2 (-29) <= fp_dir_total L psi phi J_min J l <= 1 + 3 * quad_error 2 300 + bpow radix2 (-28))%R).
Proof. exact fp2_adm_many. Qed.
Print Assumptions C86_filters_admissible.

(** and every coefficient is a number *)
Theorem C86_finite : forall fexp fpow flg J L N J_min spin psi phi, 1 <= L <= 2 ^ 52 -> 1 <= N -> N <= 900 \/ L <= 900 ->
  accurate_loggamma_to 1023 flg -> relative_exp_to (7093 / 10) fexp -> accurate_exp fexp -> exact_powers fpow J -> j_max L 2 = Ok J ->
  filters_directional_fp fexp fpow flg J L N J_min (fint 2) spin 0 = Ok (psi, phi) \/
  filters_directional_vectorised_fp fexp fpow flg J L N J_min (fint 2) spin 0 = Ok (psi, phi) ->
  forall l, Z.abs spin <= l < L ->
    is_finite (get1 phi l) = true /\
    forall j m, J_min <= j <= J -> Z.abs m < L -> is_finite (fst (get3 psi j l (L - 1 + m))) = true /\ is_finite (snd (get3 psi j l (L - 1 + m))) = true.
Proof. exact fp2_finite_many. Qed.
Print Assumptions C86_finite.

(** lam = 2, L = 5, N = 64, spin 1: a library meets all the hypotheses, and the filters are returned; the component with 1024 directions is normalised *)
Example C86_example : exists fexp fpow flg psi phi vpsi vphi, accurate_loggamma_to 1023 flg /\ relative_exp_to (7093 / 10) fexp /\ accurate_exp fexp /\ exact_powers fpow 3 /\ j_max 5 2 = Ok 3 /\
  filters_directional_fp fexp fpow flg 3 5 64 0 (fint 2) 1 0 = Ok (psi, phi) /\
  filters_directional_vectorised_fp fexp fpow flg 3 5 64 0 (fint 2) 1 0 = Ok (vpsi, vphi) /\
  (999 / 1000 <= fp_dir_total 5 vpsi vphi 0 3 2 <= 1 + 1 / 100)%R /\ is_finite (get1 vphi 2) = true /\
  (Rabs (B2R (binomial_fp flg fexp 1023 (fint 500)) - Binomial.C 1023 500) <= bpow radix2 (-31) * Binomial.C 1023 500)%R /\
  exists s, tiling_direction_fp flg fexp 1030 1024 = Ok s /\ (Rabs (sumZ (- 1029) 1030 (fun m => Cmod (cval (get2 s 1029 (1029 + m))) ^ 2) - 1) <= bpow radix2 (-29))%R.
Proof. exact ex_fp_many. Qed.
