(** * The transforms with dilation 3 in binary64 *)

From Coq Require Import ZArith Reals List Bool.
From Flocq Require Import Core IEEE754.BinarySingleNaN.
Import ListNotations.
From Verif Require Import Py ModelSamples ModelFloat ModelFloatDir ModelFloatTrans ModelFloatJaxFilt ModelFloatJax ModelFloatBack SpecFp SpecFpTrans SpecFpJax SpecFpBack SpecThree.
From Verif Require Import FloatThreeTransProps.
Import ListNotations.
Open Scope Z_scope.

(** analysis: whatever the signal, the Wigner coefficients of scale 6 are infinite or NaN at degree 794 *)
Theorem C90_analysis : forall fexp fpow flg O J f L N J_min spin s nside reality mr f_wav f_scal,
  795 <= L <= 2 ^ 50 -> 1 <= N <= L -> j_max L 3 = Ok J -> J_min <= 6 -> Z.abs spin <= 794 ->
  accurate_exp fexp -> overflowing_exp fexp -> powers_of_three fpow J -> documented_shapes O -> s <> Unknown ->
  analysis_fp fexp fpow flg O J f L N J_min (fint 3) spin 0 s nside reality mr = Ok (f_wav, f_scal) ->
  exists flmn Lj Nj L0j y, LN_j L 6 N 3 mr = Ok (Lj, Nj, L0j) /\ lrd f_wav (6 - J_min) = Ok y /\
    winv64 O flmn Lj Nj L0j s reality nside = Ok y /\
    forall n m, Z.abs n < Nj -> (n - N) mod 2 = 1 -> Z.abs m < Lj -> is_finite (fst (get3 flmn (Nj - 1 + n) 794 (Lj - 1 + m))) = false.
Proof. exact fp3_analysis. Qed.
Print Assumptions C90_analysis.

(** synthesis: whatever the coefficients, even if they vanish, the harmonic coefficients of the result are infinite or NaN at degree 794 *)
Theorem C90_synthesis : forall fexp fpow flg fsum O J f_wav f_scal L N J_min spin s nside reality mr g,
  795 <= L <= 2 ^ 50 -> 1 <= N <= L -> j_max L 3 = Ok J -> J_min <= 6 -> Z.abs spin <= 794 ->
  accurate_exp fexp -> overflowing_exp fexp -> powers_of_three fpow J -> summation fsum -> documented_shapes O ->
  synthesis_fp fexp fpow flg fsum O J f_wav f_scal L N J_min (fint 3) spin 0 s nside reality mr = Ok g ->
  exists flm, inv64 O flm L spin s nside reality = Ok g /\ rows flm = L /\ cols flm = 2 * L - 1 /\
    forall m, Z.abs m <= 794 -> is_finite (fst (get2 flm 794 (L - 1 + m))) = false.
Proof. exact fp3_synthesis. Qed.
Print Assumptions C90_synthesis.

(** the JAX transforms, with filters of either implementation *)
Theorem C90_jax_analysis : forall fexp fpow flg jlg jexp O J f L N J_min spin s nside reality psi phi f_wav f_scal,
  795 <= L <= 2 ^ 50 -> 1 <= N <= L -> j_max L 3 = Ok J -> J_min <= 6 -> Z.abs spin <= 794 ->
  accurate_exp fexp -> overflowing_exp fexp -> powers_of_three fpow J -> documented_shapes (jax_lib O) ->
  filters_directional_vectorised_fp fexp fpow flg J L N J_min (fint 3) spin 0 = Ok (psi, phi) \/
  filters_directional_jax_fp fexp fpow jlg jexp J L N J_min (fint 3) spin 0 = Ok (psi, phi) ->
  jax_analysis_fp fpow O J f L N J_min (fint 3) spin s nside reality (Some (psi, phi)) None = Ok (f_wav, f_scal) ->
  exists flmn Lj Nj L0j y, LN_j L 6 N 3 true = Ok (Lj, Nj, L0j) /\ lrd f_wav (6 - J_min) = Ok y /\
    winv64 (jax_lib O) flmn Lj Nj L0j s reality nside = Ok y /\
    forall n m, Z.abs n < Nj -> (n - N) mod 2 = 1 -> Z.abs m < Lj -> is_finite (fst (get3 flmn (Nj - 1 + n) 794 (Lj - 1 + m))) = false.
Proof. exact fp3_jax_analysis. Qed.
Print Assumptions C90_jax_analysis.

Theorem C90_jax_synthesis : forall fexp fpow flg jlg jexp fsum O J f_wav f_scal L N J_min spin s nside reality psi phi g,
  795 <= L <= 2 ^ 50 -> 1 <= N <= L -> j_max L 3 = Ok J -> J_min <= 6 -> Z.abs spin <= 794 ->
  accurate_exp fexp -> overflowing_exp fexp -> powers_of_three fpow J -> summation fsum -> documented_shapes (jax_lib O) ->
  filters_directional_vectorised_fp fexp fpow flg J L N J_min (fint 3) spin 0 = Ok (psi, phi) \/
  filters_directional_jax_fp fexp fpow jlg jexp J L N J_min (fint 3) spin 0 = Ok (psi, phi) ->
  jax_synthesis_fp fpow fsum O J f_wav f_scal L N J_min (fint 3) spin s nside reality (Some (psi, phi)) None = Ok g ->
  exists flm, inv64 (jax_lib O) flm L spin s nside reality = Ok g /\ rows flm = L /\ cols flm = 2 * L - 1 /\
    forall m, Z.abs m <= 794 -> is_finite (fst (get2 flm 794 (L - 1 + m))) = false.
Proof. exact fp3_jax_synthesis. Qed.
Print Assumptions C90_jax_synthesis.

(** the precompute transforms, with the kernels of generate_full_precomputes *)
Theorem C90_precompute_analysis : forall fexp fpow flg jlg jexp O J f L N J_min spin s nside reality psi phi q f_wav f_scal,
  795 <= L <= 2 ^ 50 -> 1 <= N <= L -> j_max L 3 = Ok J -> J_min <= 6 -> Z.abs spin <= 794 ->
  accurate_exp fexp -> overflowing_exp fexp -> powers_of_three fpow J -> documented_shapes (pre_lib O) ->
  filters_directional_vectorised_fp fexp fpow flg J L N J_min (fint 3) spin 0 = Ok (psi, phi) \/
  filters_directional_jax_fp fexp fpow jlg jexp J L N J_min (fint 3) spin 0 = Ok (psi, phi) ->
  generate_full_precomputes_fp fpow J L N J_min (fint 3) s nside false reality false = Ok q ->
  pre_analysis_fp fpow O J f L N J_min (fint 3) spin s nside reality (Some (psi, phi)) (Some q) = Ok (f_wav, f_scal) ->
  exists flmn Lj Nj L0j y, LN_j L 6 N 3 true = Ok (Lj, Nj, L0j) /\ lrd f_wav (6 - J_min) = Ok y /\
    winv64 (pre_lib O) flmn Lj Nj L0j s reality nside = Ok y /\
    forall n m, Z.abs n < Nj -> (n - N) mod 2 = 1 -> Z.abs m < Lj -> is_finite (fst (get3 flmn (Nj - 1 + n) 794 (Lj - 1 + m))) = false.
Proof. exact fp3_pre_analysis. Qed.
Print Assumptions C90_precompute_analysis.

Theorem C90_precompute_synthesis : forall fexp fpow flg jlg jexp fsum O J f_wav f_scal L N J_min spin s nside reality psi phi q g,
  795 <= L <= 2 ^ 50 -> 1 <= N <= L -> j_max L 3 = Ok J -> J_min <= 6 -> Z.abs spin <= 794 ->
  accurate_exp fexp -> overflowing_exp fexp -> powers_of_three fpow J -> summation fsum -> documented_shapes (pre_lib O) ->
  filters_directional_vectorised_fp fexp fpow flg J L N J_min (fint 3) spin 0 = Ok (psi, phi) \/
  filters_directional_jax_fp fexp fpow jlg jexp J L N J_min (fint 3) spin 0 = Ok (psi, phi) ->
  generate_full_precomputes_fp fpow J L N J_min (fint 3) s nside true reality false = Ok q ->
  pre_synthesis_fp fpow fsum O J f_wav f_scal L N J_min (fint 3) spin s nside reality (Some (psi, phi)) (Some q) = Ok g ->
  exists flm, inv64 (pre_lib O) flm L spin s nside reality = Ok g /\ rows flm = L /\ cols flm = 2 * L - 1 /\
    forall m, Z.abs m <= 794 -> is_finite (fst (get2 flm 794 (L - 1 + m))) = false.
Proof. exact fp3_pre_synthesis. Qed.
Print Assumptions C90_precompute_synthesis.

(** the PyTorch transforms, with the same kernels *)
Theorem C90_torch_analysis : forall fexp fpow flg jlg jexp O J f L N J_min spin s nside reality psi phi q f_wav f_scal,
  795 <= L <= 2 ^ 50 -> 1 <= N <= L -> j_max L 3 = Ok J -> J_min <= 6 -> Z.abs spin <= 794 ->
  accurate_exp fexp -> overflowing_exp fexp -> powers_of_three fpow J -> documented_shapes (torch_lib O) ->
  filters_directional_vectorised_fp fexp fpow flg J L N J_min (fint 3) spin 0 = Ok (psi, phi) \/
  filters_directional_jax_fp fexp fpow jlg jexp J L N J_min (fint 3) spin 0 = Ok (psi, phi) ->
  generate_full_precomputes_fp fpow J L N J_min (fint 3) s nside false reality false = Ok q ->
  torch_analysis_fp fpow O J f L N J_min (fint 3) spin s nside reality (Some (psi, phi)) (Some q) = Ok (f_wav, f_scal) ->
  exists flmn Lj Nj L0j y, LN_j L 6 N 3 true = Ok (Lj, Nj, L0j) /\ lrd f_wav (6 - J_min) = Ok (Some y) /\
    winv64 (torch_lib O) flmn Lj Nj L0j s reality nside = Ok y /\
    forall n m, Z.abs n < Nj -> (n - N) mod 2 = 1 -> Z.abs m < Lj -> is_finite (fst (get3 flmn (Nj - 1 + n) 794 (Lj - 1 + m))) = false.
Proof. exact fp3_torch_analysis. Qed.
Print Assumptions C90_torch_analysis.

Theorem C90_torch_synthesis : forall fexp fpow flg jlg jexp fsum O J f_wav f_scal L N J_min spin s nside reality psi phi q g,
  795 <= L <= 2 ^ 50 -> 1 <= N <= L -> j_max L 3 = Ok J -> J_min <= 6 -> Z.abs spin <= 794 ->
  accurate_exp fexp -> overflowing_exp fexp -> powers_of_three fpow J -> summation fsum -> documented_shapes (torch_lib O) ->
  filters_directional_vectorised_fp fexp fpow flg J L N J_min (fint 3) spin 0 = Ok (psi, phi) \/
  filters_directional_jax_fp fexp fpow jlg jexp J L N J_min (fint 3) spin 0 = Ok (psi, phi) ->
  generate_full_precomputes_fp fpow J L N J_min (fint 3) s nside true reality false = Ok q ->
  torch_synthesis_fp fpow fsum O J f_wav f_scal L N J_min (fint 3) spin s nside reality (Some (psi, phi)) (Some q) = Ok g ->
  exists flm, inv64 (torch_lib O) flm L spin s nside reality = Ok g /\ rows flm = L /\ cols flm = 2 * L - 1 /\
    forall m, Z.abs m <= 794 -> is_finite (fst (get2 flm 794 (L - 1 + m))) = false.
Proof. exact fp3_torch_synthesis. Qed.
Print Assumptions C90_torch_synthesis.

(** the transforms of the C backend (SSHT) *)
Theorem C90_ssht_analysis : forall fexp fpow flg jlg jexp O J f L N J_min spin s nside (reality : bool) psi phi f_wav f_scal,
  795 <= L <= 2 ^ 50 -> 1 <= N <= L -> j_max L 3 = Ok J -> J_min <= 6 -> Z.abs spin <= 794 ->
  accurate_exp fexp -> overflowing_exp fexp -> powers_of_three fpow J -> documented_shapes (ssht_lib O) -> ssht_scheme s -> (reality = true -> nd_real64 f = f) ->
  filters_directional_vectorised_fp fexp fpow flg J L N J_min (fint 3) spin 0 = Ok (psi, phi) \/
  filters_directional_jax_fp fexp fpow jlg jexp J L N J_min (fint 3) spin 0 = Ok (psi, phi) ->
  ssht_analysis_fp fpow O J f L N J_min (fint 3) spin s reality (Some (psi, phi)) = Ok (f_wav, f_scal) ->
  exists flmn Lj Nj L0j y, LN_j L 6 N 3 true = Ok (Lj, Nj, L0j) /\ lrd f_wav (6 - J_min) = Ok y /\
    winv64 (ssht_lib O) flmn Lj Nj L0j s reality nside = Ok y /\
    forall n m, Z.abs n < Nj -> (n - N) mod 2 = 1 -> Z.abs m < Lj -> is_finite (fst (get3 flmn (Nj - 1 + n) 794 (Lj - 1 + m))) = false.
Proof. exact fp3_ssht_analysis. Qed.
Print Assumptions C90_ssht_analysis.

Theorem C90_ssht_synthesis : forall fexp fpow flg jlg jexp fsum O J f_wav f_scal L N J_min spin s nside reality psi phi g,
  795 <= L <= 2 ^ 50 -> 1 <= N <= L -> j_max L 3 = Ok J -> J_min <= 6 -> Z.abs spin <= 794 ->
  accurate_exp fexp -> overflowing_exp fexp -> powers_of_three fpow J -> summation fsum -> documented_shapes (ssht_lib O) -> ssht_scheme s ->
  filters_directional_vectorised_fp fexp fpow flg J L N J_min (fint 3) spin 0 = Ok (psi, phi) \/
  filters_directional_jax_fp fexp fpow jlg jexp J L N J_min (fint 3) spin 0 = Ok (psi, phi) ->
  ssht_synthesis_fp fpow fsum O J f_wav f_scal L N J_min (fint 3) spin s reality (Some (psi, phi)) = Ok g ->
  exists flm, inv64 (ssht_lib O) flm L spin s nside reality = Ok g /\ rows flm = L /\ cols flm = 2 * L - 1 /\
    forall m, Z.abs m <= 794 -> is_finite (fst (get2 flm 794 (L - 1 + m))) = false.
Proof. exact fp3_ssht_synthesis. Qed.
Print Assumptions C90_ssht_synthesis.

(** L = 1000 (J = 7), J_min = 6, full resolution, vanishing coefficients, and a library storing harmonic coefficients as they are *)
Example C90_example : exists fexp fpow flg fsum O f_wav f_scal g, accurate_exp fexp /\ overflowing_exp fexp /\ powers_of_three fpow 7 /\
  summation fsum /\ documented_shapes O /\ j_max 1000 3 = Ok 7 /\
  synthesis_fp fexp fpow flg fsum O 7 f_wav f_scal 1000 1 6 (fint 3) 0 0 MW None false false = Ok g /\
  is_finite (fst (ndat64 g [794; 999])) = false.
Proof. exact ex_c90. Qed.

(** the analyses of a signal without samples of its own (zero coefficients), and the JAX synthesis, in multiresolution *)
Example C90_jax_example : exists fexp fpow flg fsum O Oj f f_wav f_scal psi phi w sc w' sc' g, accurate_exp fexp /\ overflowing_exp fexp /\ powers_of_three fpow 7 /\
  summation fsum /\ documented_shapes O /\ documented_shapes (jax_lib Oj) /\ j_max 1000 3 = Ok 7 /\
  filters_directional_vectorised_fp fexp fpow flg 7 1000 1 6 (fint 3) 0 0 = Ok (psi, phi) /\
  analysis_fp fexp fpow flg O 7 f 1000 1 6 (fint 3) 0 0 MW None false true = Ok (w, sc) /\
  jax_analysis_fp fpow Oj 7 f 1000 1 6 (fint 3) 0 MW None false (Some (psi, phi)) None = Ok (w', sc') /\
  jax_synthesis_fp fpow fsum Oj 7 f_wav f_scal 1000 1 6 (fint 3) 0 MW None false (Some (psi, phi)) None = Ok g /\
  (exists y y', lrd w 0 = Ok y /\ lrd w' 0 = Ok y' /\ is_finite (fst (ndat64 y [0; 794; 999])) = false /\ is_finite (fst (ndat64 y' [0; 794; 999])) = false) /\
  is_finite (fst (ndat64 g [794; 999])) = false.
Proof. exact ex_c90_jax. Qed.

Example C90_precompute_example : exists fexp fpow flg fsum Oj f f_wav f_scal psi phi qa qs w' sc' g, accurate_exp fexp /\ overflowing_exp fexp /\ powers_of_three fpow 7 /\
  summation fsum /\ documented_shapes (pre_lib Oj) /\ j_max 1000 3 = Ok 7 /\
  filters_directional_vectorised_fp fexp fpow flg 7 1000 1 6 (fint 3) 0 0 = Ok (psi, phi) /\
  generate_full_precomputes_fp fpow 7 1000 1 6 (fint 3) MW None false false false = Ok qa /\ generate_full_precomputes_fp fpow 7 1000 1 6 (fint 3) MW None true false false = Ok qs /\
  pre_analysis_fp fpow Oj 7 f 1000 1 6 (fint 3) 0 MW None false (Some (psi, phi)) (Some qa) = Ok (w', sc') /\
  pre_synthesis_fp fpow fsum Oj 7 f_wav f_scal 1000 1 6 (fint 3) 0 MW None false (Some (psi, phi)) (Some qs) = Ok g /\
  (exists y', lrd w' 0 = Ok y' /\ is_finite (fst (ndat64 y' [0; 794; 999])) = false) /\
  is_finite (fst (ndat64 g [794; 999])) = false.
Proof. exact ex_c90_pre. Qed.

Example C90_torch_example : exists fexp fpow flg fsum Oj f f_wav f_scal psi phi qa qs w' sc' g, accurate_exp fexp /\ overflowing_exp fexp /\ powers_of_three fpow 7 /\
  summation fsum /\ documented_shapes (torch_lib Oj) /\ j_max 1000 3 = Ok 7 /\
  filters_directional_vectorised_fp fexp fpow flg 7 1000 1 6 (fint 3) 0 0 = Ok (psi, phi) /\
  generate_full_precomputes_fp fpow 7 1000 1 6 (fint 3) MW None false false false = Ok qa /\ generate_full_precomputes_fp fpow 7 1000 1 6 (fint 3) MW None true false false = Ok qs /\
  torch_analysis_fp fpow Oj 7 f 1000 1 6 (fint 3) 0 MW None false (Some (psi, phi)) (Some qa) = Ok (w', sc') /\
  torch_synthesis_fp fpow fsum Oj 7 f_wav f_scal 1000 1 6 (fint 3) 0 MW None false (Some (psi, phi)) (Some qs) = Ok g /\
  (exists y', lrd w' 0 = Ok (Some y') /\ is_finite (fst (ndat64 y' [0; 794; 999])) = false) /\
  is_finite (fst (ndat64 g [794; 999])) = false.
Proof. exact ex_c90_torch. Qed.

Example C90_ssht_example : exists fexp fpow flg fsum Oj f f_wav f_scal psi phi w' sc' g, accurate_exp fexp /\ overflowing_exp fexp /\ powers_of_three fpow 7 /\
  summation fsum /\ documented_shapes (ssht_lib Oj) /\ j_max 1000 3 = Ok 7 /\
  filters_directional_vectorised_fp fexp fpow flg 7 1000 1 6 (fint 3) 0 0 = Ok (psi, phi) /\
  ssht_analysis_fp fpow Oj 7 f 1000 1 6 (fint 3) 0 MW false (Some (psi, phi)) = Ok (w', sc') /\
  ssht_synthesis_fp fpow fsum Oj 7 f_wav f_scal 1000 1 6 (fint 3) 0 MW false (Some (psi, phi)) = Ok g /\
  (exists y', lrd w' 0 = Ok y' /\ is_finite (fst (ndat64 y' [0; 794; 999])) = false) /\
  is_finite (fst (ndat64 g [794; 999])) = false.
Proof. exact ex_c90_ssht. Qed.
