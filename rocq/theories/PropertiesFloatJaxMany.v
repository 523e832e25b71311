(** * The JAX directional filters in binary64 *)

From Coq Require Import ZArith Reals List Bool.
From Coquelicot Require Import Complex.
From Flocq Require Import Core IEEE754.BinarySingleNaN.
Import ListNotations.
From Verif Require Import Py ModelSamples ModelFilters ModelFloat ModelFloatDir ModelFloatJaxFilt Spec SpecQuad SpecFp SpecFpDir SpecFpMany.
From Verif Require Import FloatJaxManyProps.
Import ListNotations.
Open Scope Z_scope.

(** ** C88: the JAX directional filters in binary64, whenever they are returned *)
(** the component: with the same libraries JAX and numpy compute the same bits *)
Theorem C88_component_bits : forall jlg jexp L N s, accurate_loggamma_to 1023 jlg -> relative_exp_to (7093 / 10) jexp -> 1 <= L -> 1 <= N ->
  tiling_direction_jax_fp jlg jexp L N = Ok s -> tiling_direction_fp jlg jexp L N = Ok s.
Proof. exact jax_component_bits. Qed.
Print Assumptions C88_component_bits.

(** it is returned exactly if the powers of two fit into an int64, and then it has a relative error of at most 2^-30 *)
Theorem C88_component : forall jlg jexp L N, accurate_loggamma_to 1023 jlg -> relative_exp_to (7093 / 10) jexp -> 1 <= L -> 1 <= N ->
  ((exists s, tiling_direction_jax_fp jlg jexp L N = Ok s) <-> int64_powers L N) /\
  forall sf, tiling_direction_jax_fp jlg jexp L N = Ok sf ->
  exists s, tiling_direction L N = Ok s /\ shape2 sf = shape2 s /\
    forall l m, 0 <= l < L -> Z.abs m < L -> let z := get2 sf l (L - 1 + m) in let t := get2 s l (L - 1 + m) in
      is_finite (fst z) = true /\ is_finite (snd z) = true /\ (Cmod (cval z - t)%C <= bpow radix2 (-30) * Cmod t)%R.
Proof. exact jax_component. Qed.
Print Assumptions C88_component.

Theorem C88_component_normalised : forall jlg jexp L N s, accurate_loggamma_to 1023 jlg -> relative_exp_to (7093 / 10) jexp -> 1 <= L -> 1 <= N ->
  tiling_direction_jax_fp jlg jexp L N = Ok s ->
  forall l, 1 <= l < L -> (Rabs (sumZ (- l) (l + 1) (fun m => Cmod (cval (get2 s l (L - 1 + m))) ^ 2) - 1) <= bpow radix2 (-29))%R.
Proof. exact jax_component_norm. Qed.
Print Assumptions C88_component_normalised.

(** each coefficient against the exact product of the weight, the computed kernel and the exact component, for every dilation *)
Theorem C88_coefficients : forall fexp fpow jlg jexp J L N J_min lam spin kpsi kphi psi phi s,
  accurate_loggamma_to 1023 jlg -> relative_exp_to (7093 / 10) jexp -> 1 <= L <= 2 ^ 52 -> 1 <= N ->
  filters_axisym_jax_fp fexp fpow J L J_min lam = Ok (kpsi, kphi) -> filters_directional_jax_fp fexp fpow jlg jexp J L N J_min lam spin 0 = Ok (psi, phi) ->
  tiling_direction L N = Ok s ->
  forall l, Z.abs spin <= l < L ->
    (is_finite (get1 kphi l) = true -> let w := (sqrt ((2 * IZR l + 1) / (4 * PI)) * B2R (get1 kphi l))%R in
       is_finite (get1 phi l) = true /\ (Rabs (B2R (get1 phi l) - w) <= bpow radix2 (-50) * w)%R) /\
    (forall j m, J_min <= j <= J -> Z.abs m < L -> is_finite (get2 kpsi j l) = true ->
       let w := (sqrt ((2 * IZR l + 1) / (8 * PI ^ 2)) * B2R (get2 kpsi j l))%R in
       let z := get3 psi j l (L - 1 + m) in let t := Cmult (RtoC w) (get2 s l (L - 1 + m)) in
       is_finite (fst z) = true /\ is_finite (snd z) = true /\ (Cmod (Cminus (cval z) t) <= bpow radix2 (-30) * Cmod t)%R).
Proof. exact jax_acc_many. Qed.
Print Assumptions C88_coefficients.

(** with lam = 2 the JAX filters are finite and admissible up to the quadrature error and 2^-28 *)
Theorem C88_admissible : forall fexp fpow jlg jexp J L N J_min spin psi phi, 1 <= L <= 2 ^ 52 -> 1 <= N ->
  accurate_loggamma_to 1023 jlg -> relative_exp_to (7093 / 10) jexp -> accurate_exp fexp -> exact_powers fpow J -> j_max L 2 = Ok J ->
  filters_directional_jax_fp fexp fpow jlg jexp J L N J_min (fint 2) spin 0 = Ok (psi, phi) ->
  forall l, Z.abs spin <= l < L ->
    (1 - bpow radix2 (-29) <= fp_dir_total L psi phi J_min J l <= 1 + quad_error 2 300 + bpow radix2 (-28))%R /\
    is_finite (get1 phi l) = true /\
    forall j m, J_min <= j <= J -> Z.abs m < L -> is_finite (fst (get3 psi j l (L - 1 + m))) = true /\ is_finite (snd (get3 psi j l (L - 1 + m))) = true.
Proof. exact jax_adm_many. Qed.
Print Assumptions C88_admissible.

(** with different libraries the JAX and the numpy coefficients of returned filters are within a relative 2^-28 of each other *)
Theorem C88_agreement : forall fexp fpow flg jlg jexp J L N J_min spin psi phi psi' phi', 1 <= L <= 2 ^ 52 -> 1 <= N ->
  accurate_loggamma_to 1023 flg -> relative_exp_to (7093 / 10) fexp -> accurate_loggamma_to 1023 jlg -> relative_exp_to (7093 / 10) jexp ->
  accurate_exp fexp -> exact_powers fpow J -> j_max L 2 = Ok J ->
  filters_directional_jax_fp fexp fpow jlg jexp J L N J_min (fint 2) spin 0 = Ok (psi, phi) ->
  filters_directional_vectorised_fp fexp fpow flg J L N J_min (fint 2) spin 0 = Ok (psi', phi') ->
  forall l, Z.abs spin <= l < L -> get1 phi l = get1 phi' l /\
    forall j m, J_min <= j <= J -> Z.abs m < L ->
      (Cmod (Cminus (cval (get3 psi j l (L - 1 + m))) (cval (get3 psi' j l (L - 1 + m)))) <= bpow radix2 (-28) * Cmod (cval (get3 psi' j l (L - 1 + m))))%R.
Proof. exact jax_numpy_many. Qed.
Print Assumptions C88_agreement.

(** they are returned exactly if the axisymmetric filters are and the powers of two fit into an int64 *)
Theorem C88_returned : forall fexp fpow jlg jexp J L N J_min lam spin, accurate_loggamma_to 1023 jlg -> relative_exp_to (7093 / 10) jexp -> 1 <= L -> 1 <= N ->
  ((exists r, filters_directional_jax_fp fexp fpow jlg jexp J L N J_min lam spin 0 = Ok r) <->
   (exists k, filters_axisym_jax_fp fexp fpow J L J_min lam = Ok k) /\ int64_powers L N).
Proof. exact jax_returned. Qed.
Print Assumptions C88_returned.

(** lam = 2, L = 5, N = 100, spin 1: the JAX and the numpy filters are returned, admissible, and agree *)
Example C88_example : exists fexp fpow lg psi phi psi' phi', accurate_loggamma_to 1023 lg /\ relative_exp_to (7093 / 10) fexp /\ accurate_exp fexp /\ exact_powers fpow 3 /\ j_max 5 2 = Ok 3 /\
  filters_directional_jax_fp fexp fpow lg fexp 3 5 100 0 (fint 2) 1 0 = Ok (psi, phi) /\
  filters_directional_vectorised_fp fexp fpow lg 3 5 100 0 (fint 2) 1 0 = Ok (psi', phi') /\
  (999 / 1000 <= fp_dir_total 5 psi phi 0 3 2 <= 1 + 1 / 100)%R /\ get1 phi 2 = get1 phi' 2.
Proof. exact ex_jax_many. Qed.
