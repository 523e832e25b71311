(** * The directional filters with dilation 4 in binary64 *)

From Coq Require Import ZArith Reals List Bool.
From Flocq Require Import Core IEEE754.BinarySingleNaN.
From Verif Require Import Py ModelSamples ModelFloat ModelFloatDir ModelFloatJaxFilt Spec SpecFp SpecFpDir SpecFpMany SpecFour.
From Verif Require Import FloatFourDirProps.
Import ListNotations.
Open Scope Z_scope.

(** ** C91, continued: the directional filters *)
(** they are returned unless the powers of two of the directional component overflow *)
Theorem C91_directional_filters_return : forall fexp fpow flg J L N J_min spin spin0, 1 <= L <= 2 ^ 52 -> float_powers L N -> 0 <= J_min < J -> J <= 25 -> powers_of_four fpow J ->
  (exists r, filters_directional_fp fexp fpow flg J L N J_min (fint 4) spin spin0 = Ok r) /\
  (exists r, filters_directional_vectorised_fp fexp fpow flg J L N J_min (fint 4) spin 0 = Ok r).
Proof. exact fp4_dir_total. Qed.
Print Assumptions C91_directional_filters_return.

Theorem C91_jax_directional_filters_return : forall fexp fpow jlg jexp J L N J_min spin, accurate_loggamma_to 1023 jlg -> relative_exp_to (7093 / 10) jexp ->
  1 <= L <= 2 ^ 52 -> 1 <= N -> 0 <= J_min < J -> J <= 25 -> powers_of_four fpow J ->
  ((exists r, filters_directional_jax_fp fexp fpow jlg jexp J L N J_min (fint 4) spin 0 = Ok r) <-> int64_powers L N).
Proof. exact fp4_jax_total. Qed.
Print Assumptions C91_jax_directional_filters_return.

(** every coefficient of the looped and of the vectorised directional filters is finite *)
Theorem C91_directional_filters_finite : forall fexp fpow flg J L N J_min spin psi phi, 1 <= L <= 2 ^ 52 -> 1 <= N -> N <= 900 \/ L <= 900 -> J <= 25 ->
  accurate_loggamma_to 1023 flg -> relative_exp_to (7093 / 10) fexp -> accurate_exp fexp -> powers_of_four fpow J ->
  filters_directional_fp fexp fpow flg J L N J_min (fint 4) spin 0 = Ok (psi, phi) \/
  filters_directional_vectorised_fp fexp fpow flg J L N J_min (fint 4) spin 0 = Ok (psi, phi) ->
  forall l, Z.abs spin <= l < L ->
    is_finite (get1 phi l) = true /\
    forall j m, J_min <= j <= J -> Z.abs m < L -> is_finite (fst (get3 psi j l (L - 1 + m))) = true /\ is_finite (snd (get3 psi j l (L - 1 + m))) = true.
Proof. exact fp4_dir_finite. Qed.
Print Assumptions C91_directional_filters_finite.

(** and of the JAX ones *)
Theorem C91_jax_directional_filters_finite : forall fexp fpow jlg jexp J L N J_min spin psi phi, 1 <= L <= 2 ^ 52 -> 1 <= N -> J <= 25 ->
  accurate_loggamma_to 1023 jlg -> relative_exp_to (7093 / 10) jexp -> accurate_exp fexp -> powers_of_four fpow J ->
  filters_directional_jax_fp fexp fpow jlg jexp J L N J_min (fint 4) spin 0 = Ok (psi, phi) ->
  forall l, Z.abs spin <= l < L ->
    is_finite (get1 phi l) = true /\
    forall j m, J_min <= j <= J -> Z.abs m < L -> is_finite (fst (get3 psi j l (L - 1 + m))) = true /\ is_finite (snd (get3 psi j l (L - 1 + m))) = true.
Proof. exact fp4_jax_finite. Qed.
Print Assumptions C91_jax_directional_filters_finite.

(** no energy is lost: the squares of the vectorised and JAX axisymmetric filters sum to at least 1 - 2^-51 at every degree, *)
(** and to more than 1 + 2^-51 only where the quadrature exceeds its normalisation *)
Theorem C91_energy : forall fexp fpow J L J_min psi phi k l, L <= 2 ^ 53 -> J <= 25 -> L <= 4 ^ J -> accurate_exp fexp -> powers_of_four fpow J ->
  increasing_powers fpow (fint 4) J ->
  filters_axisym_vectorised_fp fexp fpow J L J_min (fint 4) = Ok (psi, phi) \/
  filters_axisym_jax_fp fexp fpow J L J_min (fint 4) = Ok (psi, phi) ->
  k_lam_fp fexp fpow J L (fint 4) 300 = Ok k -> 0 <= l < L ->
  (1 - bpow radix2 (-51) <= fp_total psi phi J_min J l)%R /\
  ((1 + bpow radix2 (-51) < fp_total psi phi J_min J l)%R -> exists j, J_min <= j <= J /\ (1 < B2R (get2 k j l))%R).
Proof. exact fp4_energy. Qed.
Print Assumptions C91_energy.

(** nor by the vectorised directional filters, up to 2^-29, from degree max(1, |spin|) on *)
Theorem C91_directional_energy : forall fexp fpow flg J L N J_min spin psi phi, 1 <= L <= 2 ^ 52 -> 1 <= N -> N <= 900 \/ L <= 900 -> J <= 25 -> L <= 4 ^ J ->
  accurate_loggamma_to 1023 flg -> relative_exp_to (7093 / 10) fexp -> accurate_exp fexp -> powers_of_four fpow J -> increasing_powers fpow (fint 4) J ->
  filters_directional_vectorised_fp fexp fpow flg J L N J_min (fint 4) spin 0 = Ok (psi, phi) ->
  forall l, 1 <= l -> Z.abs spin <= l < L -> (1 - bpow radix2 (-29) <= fp_dir_total L psi phi J_min J l)%R.
Proof. exact fp4_dir_energy. Qed.
Print Assumptions C91_directional_energy.

(** L = 1000 (J = 5), N = 63, spin 2: filters are returned, and their coefficients at l = 794 are finite *)
Example C91_directional_example : exists fexp fpow flg psi phi, accurate_loggamma_to 1023 flg /\ relative_exp_to (7093 / 10) fexp /\ accurate_exp fexp /\ powers_of_four fpow 5 /\
  filters_directional_vectorised_fp fexp fpow flg 5 1000 63 0 (fint 4) 2 0 = Ok (psi, phi) /\
  is_finite (get1 phi 2) = true /\ is_finite (fst (get3 psi 4 794 (1000 - 1 + 30))) = true /\
  exists jpsi jphi, filters_directional_jax_fp fexp fpow flg fexp 5 1000 63 0 (fint 4) 2 0 = Ok (jpsi, jphi) /\ is_finite (fst (get3 jpsi 4 794 (1000 - 1 + 30))) = true.
Proof. exact ex_c91_dir. Qed.

(** L = 1000 (J = 5), for the directional filters also N = 63, spin 2: the hypotheses of the energy bounds hold *)
Example C91_energy_example : exists fexp fpow psi phi, accurate_exp fexp /\ powers_of_four fpow 5 /\ increasing_powers fpow (fint 4) 5 /\
  filters_axisym_vectorised_fp fexp fpow 5 1000 0 (fint 4) = Ok (psi, phi) /\ (1 - bpow radix2 (-51) <= fp_total psi phi 0 5 794)%R /\
  exists flg dpsi dphi, accurate_loggamma_to 1023 flg /\ relative_exp_to (7093 / 10) fexp /\
    filters_directional_vectorised_fp fexp fpow flg 5 1000 63 0 (fint 4) 2 0 = Ok (dpsi, dphi) /\ (1 - bpow radix2 (-29) <= fp_dir_total 1000 dpsi dphi 0 5 794)%R.
Proof. exact ex_c91_energy. Qed.
