(** * The directional filters with dilation 3 in binary64 *)

From Coq Require Import ZArith Reals List Bool.
From Flocq Require Import Core IEEE754.BinarySingleNaN.
From Verif Require Import Py ModelSamples ModelFloat ModelFloatDir ModelFloatJaxFilt Spec SpecFp SpecFpDir SpecFpMany SpecThree.
From Verif Require Import FloatThreeDirProps.
Import ListNotations.
Open Scope Z_scope.

(** ** C89, continued: up to band-limit 794 the looped filters are finite, too *)
Theorem C89_looped_filters_finite : forall fexp fpow J L J_min psi phi, L <= 794 -> J <= 32 -> accurate_exp fexp -> overflowing_exp fexp -> powers_of_three fpow J ->
  filters_axisym_fp fexp fpow J L J_min (fint 3) = Ok (psi, phi) ->
  forall j l, 0 <= j <= J -> 0 <= l < L -> is_finite (get2 psi j l) = true /\ is_finite (get1 phi l) = true.
Proof. exact fp3_loop_finite. Qed.
Print Assumptions C89_looped_filters_finite.

(** the directional filters *)
(** they are returned unless the powers of two of the directional component overflow *)
Theorem C89_directional_filters_return : forall fexp fpow flg J L N J_min spin spin0, 1 <= L <= 2 ^ 52 -> float_powers L N -> 0 <= J_min < J -> J <= 32 -> powers_of_three fpow J ->
  (exists r, filters_directional_fp fexp fpow flg J L N J_min (fint 3) spin spin0 = Ok r) /\
  (exists r, filters_directional_vectorised_fp fexp fpow flg J L N J_min (fint 3) spin 0 = Ok r).
Proof. exact fp3_dir_total. Qed.
Print Assumptions C89_directional_filters_return.

Theorem C89_jax_directional_filters_return : forall fexp fpow jlg jexp J L N J_min spin, accurate_loggamma_to 1023 jlg -> relative_exp_to (7093 / 10) jexp ->
  1 <= L <= 2 ^ 52 -> 1 <= N -> 0 <= J_min < J -> J <= 32 -> powers_of_three fpow J ->
  ((exists r, filters_directional_jax_fp fexp fpow jlg jexp J L N J_min (fint 3) spin 0 = Ok r) <-> int64_powers L N).
Proof. exact fp3_jax_total. Qed.
Print Assumptions C89_jax_directional_filters_return.

(** every coefficient of the looped and of the vectorised directional filters is finite *)
Theorem C89_directional_filters_finite : forall fexp fpow flg J L N J_min spin psi phi, 1 <= L <= 794 -> 1 <= N -> J <= 32 ->
  accurate_loggamma_to 1023 flg -> relative_exp_to (7093 / 10) fexp -> accurate_exp fexp -> overflowing_exp fexp -> powers_of_three fpow J ->
  filters_directional_fp fexp fpow flg J L N J_min (fint 3) spin 0 = Ok (psi, phi) \/
  filters_directional_vectorised_fp fexp fpow flg J L N J_min (fint 3) spin 0 = Ok (psi, phi) ->
  forall l, Z.abs spin <= l < L ->
    is_finite (get1 phi l) = true /\
    forall j m, J_min <= j <= J -> Z.abs m < L -> is_finite (fst (get3 psi j l (L - 1 + m))) = true /\ is_finite (snd (get3 psi j l (L - 1 + m))) = true.
Proof. exact fp3_dir_finite. Qed.
Print Assumptions C89_directional_filters_finite.

(** and of the JAX ones *)
Theorem C89_jax_directional_filters_finite : forall fexp fpow jlg jexp J L N J_min spin psi phi, 1 <= L <= 794 -> 1 <= N -> J <= 32 ->
  accurate_loggamma_to 1023 jlg -> relative_exp_to (7093 / 10) jexp -> accurate_exp fexp -> overflowing_exp fexp -> powers_of_three fpow J ->
  filters_directional_jax_fp fexp fpow jlg jexp J L N J_min (fint 3) spin 0 = Ok (psi, phi) ->
  forall l, Z.abs spin <= l < L ->
    is_finite (get1 phi l) = true /\
    forall j m, J_min <= j <= J -> Z.abs m < L -> is_finite (fst (get3 psi j l (L - 1 + m))) = true /\ is_finite (snd (get3 psi j l (L - 1 + m))) = true.
Proof. exact fp3_jax_finite. Qed.
Print Assumptions C89_jax_directional_filters_finite.

(** from band-limit 795 on, the JAX directional filters contain infinities or NaNs at every order, like the vectorised ones *)
Theorem C89_jax_directional : forall fexp fpow jlg jexp J L N J_min spin psi phi, 795 <= L <= 2 ^ 53 -> 6 <= J <= 32 -> J_min <= 6 -> Z.abs spin <= 794 ->
  accurate_exp fexp -> overflowing_exp fexp -> powers_of_three fpow J ->
  filters_directional_jax_fp fexp fpow jlg jexp J L N J_min (fint 3) spin 0 = Ok (psi, phi) ->
  forall i, 0 <= i < 2 * L - 1 -> is_finite (fst (get3 psi 6 794 i)) = false.
Proof. exact fp3_jax_directional. Qed.
Print Assumptions C89_jax_directional.

(** up to band-limit 794 no energy is lost: the squares of the vectorised and JAX axisymmetric filters sum to at least 1 - 2^-51 at every degree, *)
(** and to more than 1 + 2^-51 only where the quadrature exceeds its normalisation *)
Theorem C89_energy : forall fexp fpow J L J_min psi phi k l, L <= 794 -> J <= 32 -> L <= 3 ^ J -> accurate_exp fexp -> overflowing_exp fexp -> powers_of_three fpow J ->
  increasing_powers fpow (fint 3) J ->
  filters_axisym_vectorised_fp fexp fpow J L J_min (fint 3) = Ok (psi, phi) \/
  filters_axisym_jax_fp fexp fpow J L J_min (fint 3) = Ok (psi, phi) ->
  k_lam_fp fexp fpow J L (fint 3) 300 = Ok k -> 0 <= l < L ->
  (1 - bpow radix2 (-51) <= fp_total psi phi J_min J l)%R /\
  ((1 + bpow radix2 (-51) < fp_total psi phi J_min J l)%R -> exists j, J_min <= j <= J /\ (1 < B2R (get2 k j l))%R).
Proof. exact fp3_energy. Qed.
Print Assumptions C89_energy.

(** L = 794 (J = 7), N = 63, spin 2: filters are returned, and their coefficients at l = 793 are finite *)
Example C89_directional_example : exists fexp fpow flg psi phi, accurate_loggamma_to 1023 flg /\ relative_exp_to (7093 / 10) fexp /\ accurate_exp fexp /\ overflowing_exp fexp /\ powers_of_three fpow 7 /\
  filters_directional_fp fexp fpow flg 7 794 63 0 (fint 3) 2 0 = Ok (psi, phi) /\
  is_finite (get1 phi 2) = true /\ is_finite (fst (get3 psi 6 793 (794 - 1 + 30))) = true /\
  exists jpsi jphi, filters_directional_jax_fp fexp fpow flg fexp 7 794 63 0 (fint 3) 2 0 = Ok (jpsi, jphi) /\ is_finite (fst (get3 jpsi 6 793 (794 - 1 + 30))) = true.
Proof. exact ex_c89_dir. Qed.

(** L = 794 (J = 7): the hypotheses of the energy bound hold *)
Example C89_energy_example : exists fexp fpow psi phi, accurate_exp fexp /\ overflowing_exp fexp /\ powers_of_three fpow 7 /\ increasing_powers fpow (fint 3) 7 /\
  filters_axisym_vectorised_fp fexp fpow 7 794 0 (fint 3) = Ok (psi, phi) /\ (1 - bpow radix2 (-51) <= fp_total psi phi 0 7 700)%R.
Proof. exact ex_c89_energy. Qed.
