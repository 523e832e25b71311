(** * Wavelet coefficients from harmonic coefficients with dilation 3 in binary64 *)

From Coq Require Import ZArith Reals List Bool.
From Flocq Require Import Core IEEE754.BinarySingleNaN.
Import ListNotations.
From Verif Require Import Py ModelSamples ModelFloat ModelFloatDir ModelFloatTrans ModelFloatJaxFilt ModelFloatJax ModelFloatBack SpecFp SpecFpTrans SpecFpJax SpecFpBack SpecThree.
From Verif Require Import FloatThreeFlmProps.
Import ListNotations.
Open Scope Z_scope.

(** whatever the harmonic coefficients: the JAX backend, up to the scale requested *)
Theorem C90_jax_wavelet_coefficients : forall fexp fpow flg jlg jexp O J flm L N J_min J_max Jt spin s nside reality psi phi q p w,
  795 <= L <= 2 ^ 50 -> 1 <= N <= L -> j_max L 3 = Ok J -> J_min <= 6 -> Z.abs spin <= 794 ->
  accurate_exp fexp -> overflowing_exp fexp -> powers_of_three fpow J ->
  filters_directional_vectorised_fp fexp fpow flg J L N J_min (fint 3) spin 0 = Ok (psi, phi) \/
  filters_directional_jax_fp fexp fpow jlg jexp J L N J_min (fint 3) spin 0 = Ok (psi, phi) ->
  6 <= Jt <= J -> J_max = Some Jt \/ J_max = None /\ Jt = J ->
  generate_wigner_precomputes_fp fpow J L N J_min (fint 3) s nside false reality = Ok q -> p = None \/ p = Some q ->
  rows flm = L -> cols flm = 2 * L - 1 ->
  jax_flm_to_analysis_fp fpow O J flm L N J_min J_max (fint 3) s nside reality (Some psi) p = Ok w ->
  exists flmn Lj Nj L0j y, LN_j L 6 N 3 true = Ok (Lj, Nj, L0j) /\ lrd w (6 - J_min) = Ok y /\
    winv64 (jax_lib O) flmn Lj Nj L0j s reality nside = Ok y /\
    forall n m, Z.abs n < Nj -> (n - N) mod 2 = 1 -> Z.abs m < Lj -> is_finite (fst (get3 flmn (Nj - 1 + n) 794 (Lj - 1 + m))) = false.
Proof. exact fp3_jax_flm. Qed.
Print Assumptions C90_jax_wavelet_coefficients.

(** the precompute backend, with the kernels of generate_full_precomputes *)
Theorem C90_precompute_wavelet_coefficients : forall fexp fpow flg jlg jexp O J flm L N J_min J_max spin s nside reality psi phi q nosph w,
  795 <= L <= 2 ^ 50 -> 1 <= N <= L -> j_max L 3 = Ok J -> J_min <= 6 -> Z.abs spin <= 794 ->
  accurate_exp fexp -> overflowing_exp fexp -> powers_of_three fpow J ->
  filters_directional_vectorised_fp fexp fpow flg J L N J_min (fint 3) spin 0 = Ok (psi, phi) \/
  filters_directional_jax_fp fexp fpow jlg jexp J L N J_min (fint 3) spin 0 = Ok (psi, phi) ->
  J_max = Some J \/ J_max = None ->
  generate_full_precomputes_fp fpow J L N J_min (fint 3) s nside false reality nosph = Ok q ->
  rows flm = L -> cols flm = 2 * L - 1 ->
  pre_flm_to_analysis_fp fpow O J flm L N J_min J_max (fint 3) s nside reality (Some psi) (Some q) = Ok w ->
  exists flmn Lj Nj L0j y, LN_j L 6 N 3 true = Ok (Lj, Nj, L0j) /\ lrd w (6 - J_min) = Ok y /\
    winv64 (pre_lib O) flmn Lj Nj L0j s reality nside = Ok y /\
    forall n m, Z.abs n < Nj -> (n - N) mod 2 = 1 -> Z.abs m < Lj -> is_finite (fst (get3 flmn (Nj - 1 + n) 794 (Lj - 1 + m))) = false.
Proof. exact fp3_precompute_flm. Qed.
Print Assumptions C90_precompute_wavelet_coefficients.

(** the PyTorch backend, with the same kernels *)
Theorem C90_torch_wavelet_coefficients : forall fexp fpow flg jlg jexp O J flm L N J_min J_max spin s nside reality psi phi q nosph w,
  795 <= L <= 2 ^ 50 -> 1 <= N <= L -> j_max L 3 = Ok J -> J_min <= 6 -> Z.abs spin <= 794 ->
  accurate_exp fexp -> overflowing_exp fexp -> powers_of_three fpow J ->
  filters_directional_vectorised_fp fexp fpow flg J L N J_min (fint 3) spin 0 = Ok (psi, phi) \/
  filters_directional_jax_fp fexp fpow jlg jexp J L N J_min (fint 3) spin 0 = Ok (psi, phi) ->
  J_max = Some J \/ J_max = None ->
  generate_full_precomputes_fp fpow J L N J_min (fint 3) s nside false reality nosph = Ok q ->
  rows flm = L -> cols flm = 2 * L - 1 ->
  torch_flm_to_analysis_fp fpow O J flm L N J_min J_max (fint 3) s nside reality (Some psi) (Some q) = Ok w ->
  exists flmn Lj Nj L0j y, LN_j L 6 N 3 true = Ok (Lj, Nj, L0j) /\ lrd w (6 - J_min) = Ok (Some y) /\
    winv64 (torch_lib O) flmn Lj Nj L0j s reality nside = Ok y /\
    forall n m, Z.abs n < Nj -> (n - N) mod 2 = 1 -> Z.abs m < Lj -> is_finite (fst (get3 flmn (Nj - 1 + n) 794 (Lj - 1 + m))) = false.
Proof. exact fp3_torch_flm. Qed.
Print Assumptions C90_torch_wavelet_coefficients.

(** the C backend (SSHT) *)
Theorem C90_ssht_wavelet_coefficients : forall fexp fpow flg jlg jexp O J flm L N J_min J_max Jt spin s nside reality psi phi w,
  795 <= L <= 2 ^ 50 -> 1 <= N <= L -> j_max L 3 = Ok J -> J_min <= 6 -> Z.abs spin <= 794 ->
  accurate_exp fexp -> overflowing_exp fexp -> powers_of_three fpow J ->
  filters_directional_vectorised_fp fexp fpow flg J L N J_min (fint 3) spin 0 = Ok (psi, phi) \/
  filters_directional_jax_fp fexp fpow jlg jexp J L N J_min (fint 3) spin 0 = Ok (psi, phi) ->
  6 <= Jt <= J -> J_max = Some Jt \/ J_max = None /\ Jt = J ->
  rows flm = L -> cols flm = 2 * L - 1 ->
  ssht_flm_to_analysis_fp fpow O J flm L N J_min J_max (fint 3) s reality (Some psi) = Ok w ->
  exists flmn Lj Nj L0j y, LN_j L 6 N 3 true = Ok (Lj, Nj, L0j) /\ lrd w (6 - J_min) = Ok y /\
    winv64 (ssht_lib O) flmn Lj Nj L0j s reality nside = Ok y /\
    forall n m, Z.abs n < Nj -> (n - N) mod 2 = 1 -> Z.abs m < Lj -> is_finite (fst (get3 flmn (Nj - 1 + n) 794 (Lj - 1 + m))) = false.
Proof. exact fp3_ssht_flm. Qed.
Print Assumptions C90_ssht_wavelet_coefficients.

(** L = 1000 (J = 7), N = 1, J_min = 6 and vanishing harmonic coefficients; the JAX and C backends stop at scale 6 *)
Example C90_wavelet_coefficients_example : exists fexp fpow flg Oj O flm psi phi qw qa w w' w'' w3, accurate_exp fexp /\ overflowing_exp fexp /\ powers_of_three fpow 7 /\ j_max 1000 3 = Ok 7 /\
  filters_directional_vectorised_fp fexp fpow flg 7 1000 1 6 (fint 3) 0 0 = Ok (psi, phi) /\
  generate_wigner_precomputes_fp fpow 7 1000 1 6 (fint 3) MW None false false = Ok qw /\
  generate_full_precomputes_fp fpow 7 1000 1 6 (fint 3) MW None false false false = Ok qa /\
  rows flm = 1000 /\ cols flm = 2 * 1000 - 1 /\ (forall l q, 0 <= l < 1000 -> 0 <= q < 1999 -> get2 flm l q = creal (fint 0)) /\
  jax_flm_to_analysis_fp fpow Oj 7 flm 1000 1 6 (Some 6) (fint 3) MW None false (Some psi) None = Ok w /\
  pre_flm_to_analysis_fp fpow Oj 7 flm 1000 1 6 None (fint 3) MW None false (Some psi) (Some qa) = Ok w' /\
  torch_flm_to_analysis_fp fpow O 7 flm 1000 1 6 None (fint 3) MW None false (Some psi) (Some qa) = Ok w'' /\
  ssht_flm_to_analysis_fp fpow O 7 flm 1000 1 6 (Some 6) (fint 3) MW false (Some psi) = Ok w3 /\
  exists y y', lrd w 0 = Ok y /\ lrd w' 0 = Ok y' /\ is_finite (fst (ndat64 y [0; 794; 999])) = false /\ is_finite (fst (ndat64 y' [0; 794; 999])) = false.
Proof. exact ex_c90_flm. Qed.
