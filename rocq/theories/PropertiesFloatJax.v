(** * The JAX transforms in binary64 *)

From Coq Require Import ZArith Reals List Bool.
From Coquelicot Require Import Complex.
From Flocq Require Import Core IEEE754.BinarySingleNaN.
Import ListNotations.
From Verif Require Import Py ModelSamples ModelFilters ModelTransforms ModelFloat ModelFloatDir ModelFloatTrans ModelFloatJax Spec SpecTransforms SpecQuad SpecFp SpecFpDir SpecFpTrans SpecFpJax.
From Verif Require Import FloatJaxProps.
Import ListNotations.
Open Scope Z_scope.

(** ** C71: what the JAX and the precompute transforms hand to s2fft *)
Theorem C71_jax_analysis_coefficients : forall fexp fpow flg O J f flm L N J_min spin s nside reality psi phi sz Ls q p,
  1 <= L <= 2 ^ 52 -> 1 <= N <= L -> N <= 41 -> accurate_loggamma flg -> relative_exp fexp -> accurate_exp fexp -> exact_powers fpow J -> j_max L 2 = Ok J ->
  filters_directional_vectorised_fp fexp fpow flg J L N J_min (fint 2) spin 0 = Ok (psi, phi) ->
  generate_wigner_precomputes_fp fpow J L N J_min (fint 2) s nside false reality = Ok q -> (p = None \/ p = Some q) ->
  (forall j, LN_j L j N 2 true = Ok (sz j)) -> scal_bandlimit L J_min 2 true = Ok Ls ->
  jf64 O f L spin nside s reality = Ok flm -> rows flm = L -> cols flm = 2 * L - 1 -> numbers2 (bpow radix2 900) flm ->
  exists W S,
    jax_analysis_fp fpow O J f L N J_min (fint 2) spin s nside reality (Some (psi, phi)) p
    = (w <- mapM (fun j => let '(Lj, Nj, L0j) := sz j in winv64 (jax_lib O) (W j) Lj Nj L0j s reality nside) (zrange J_min (J + 1)) ;;
       sc <- inv64 (jax_lib O) S Ls spin s nside reality ;;
       Ok (w, sc)) /\
    (forall j, J_min <= j <= J -> near3 (bpow radix2 (-49)) (bpow radix2 (-1073)) (W j) (wcoefs L (vals3 psi) (vals2 flm) sz j)) /\
    near2 (bpow radix2 (-49)) (bpow radix2 (-1073)) S (scaling_coefs L (vals1 phi) (vals2 flm) Ls).
Proof. exact jan. Qed.
Print Assumptions C71_jax_analysis_coefficients.

Theorem C71_precompute_analysis_coefficients : forall fexp fpow flg O J f flm L N J_min spin s nside reality psi phi sz Ls q,
  1 <= L <= 2 ^ 52 -> 1 <= N <= L -> N <= 41 -> accurate_loggamma flg -> relative_exp fexp -> accurate_exp fexp -> exact_powers fpow J -> j_max L 2 = Ok J ->
  filters_directional_vectorised_fp fexp fpow flg J L N J_min (fint 2) spin 0 = Ok (psi, phi) ->
  generate_full_precomputes_fp fpow J L N J_min (fint 2) s nside false reality false = Ok q ->
  (forall j, LN_j L j N 2 true = Ok (sz j)) -> scal_bandlimit L J_min 2 true = Ok Ls ->
  fwd64 (pre_lib O) f L spin s nside reality = Ok flm -> rows flm = L -> cols flm = 2 * L - 1 -> numbers2 (bpow radix2 900) flm ->
  exists W S,
    pre_analysis_fp fpow O J f L N J_min (fint 2) spin s nside reality (Some (psi, phi)) (Some q)
    = (w <- mapM (fun j => let '(Lj, Nj, L0j) := sz j in winv64 (pre_lib O) (W j) Lj Nj L0j s reality nside) (zrange J_min (J + 1)) ;;
       sc <- inv64 (pre_lib O) S Ls spin s nside reality ;;
       Ok (w, sc)) /\
    (forall j, J_min <= j <= J -> near3 (bpow radix2 (-49)) (bpow radix2 (-1073)) (W j) (wcoefs L (vals3 psi) (vals2 flm) sz j)) /\
    near2 (bpow radix2 (-49)) (bpow radix2 (-1073)) S (scaling_coefs L (vals1 phi) (vals2 flm) Ls).
Proof. exact pan. Qed.
Print Assumptions C71_precompute_analysis_coefficients.

Theorem C71_jax_synthesis_coefficients : forall fexp fpow flg fsum O J f_wav f_scal T S L N J_min spin s nside reality psi phi sz Ls q p,
  1 <= L <= 2 ^ 52 -> 1 <= N <= L -> N <= 41 -> accurate_loggamma flg -> relative_exp fexp -> accurate_exp fexp -> exact_powers fpow J -> j_max L 2 = Ok J ->
  filters_directional_vectorised_fp fexp fpow flg J L N J_min (fint 2) spin 0 = Ok (psi, phi) -> summation fsum ->
  generate_wigner_precomputes_fp fpow J L N J_min (fint 2) s nside true reality = Ok q -> (p = None \/ p = Some q) ->
  (forall j, LN_j L j N 2 true = Ok (sz j)) -> scal_bandlimit L J_min 2 true = Ok Ls ->
  fwd64 (jax_lib O) f_scal Ls spin s nside reality = Ok S -> rows S = Ls -> cols S = 2 * Ls - 1 -> numbers2 (bpow radix2 900) S ->
  (forall j, J_min <= j <= J -> let '(Lj, Nj, L0j) := sz j in
     (exists fj, lrd f_wav (j - J_min) = Ok fj /\ wfwd64 (jax_lib O) fj Lj Nj L0j s reality nside = Ok (T j)) /\
     dim0 (T j) = 2 * Nj - 1 /\ dim1 (T j) = Lj /\ dim2 (T j) = 2 * Lj - 1 /\ numbers3 (bpow radix2 900) (T j)) ->
  exists g,
    jax_synthesis_fp fpow fsum O J f_wav f_scal L N J_min (fint 2) spin s nside reality (Some (psi, phi)) p = inv64 (jax_lib O) g L spin s nside reality /\
    rows g = L /\ cols g = 2 * L - 1 /\
    forall l m, 0 <= l < L -> 0 <= m < 2 * L - 1 ->
      finite64 (get2 g l m) /\
      (Cmod (cval (get2 g l m) - get2 (synthesised L J_min J (vals3 psi) (vals1 phi) sz (fun j => vals3 (T j)) Ls (vals2 S)) l m)%C
       <= IZR (N + J + 8) * bpow radix2 (-52) *
          Cmod (get2 (synthesised L J_min J (abs3 (vals3 psi)) (abs1 (vals1 phi)) sz (fun j => abs3 (vals3 (T j))) Ls (abs2 (vals2 S))) l m) + bpow radix2 (-1060))%R.
Proof. exact jsy. Qed.
Print Assumptions C71_jax_synthesis_coefficients.

Theorem C71_precompute_synthesis_coefficients : forall fexp fpow flg fsum O J f_wav f_scal T S L N J_min spin s nside reality psi phi sz Ls q,
  1 <= L <= 2 ^ 52 -> 1 <= N <= L -> N <= 41 -> accurate_loggamma flg -> relative_exp fexp -> accurate_exp fexp -> exact_powers fpow J -> j_max L 2 = Ok J ->
  filters_directional_vectorised_fp fexp fpow flg J L N J_min (fint 2) spin 0 = Ok (psi, phi) -> summation fsum ->
  generate_full_precomputes_fp fpow J L N J_min (fint 2) s nside true reality false = Ok q ->
  (forall j, LN_j L j N 2 true = Ok (sz j)) -> scal_bandlimit L J_min 2 true = Ok Ls ->
  fwd64 (pre_lib O) f_scal Ls spin s nside reality = Ok S -> rows S = Ls -> cols S = 2 * Ls - 1 -> numbers2 (bpow radix2 900) S ->
  (forall j, J_min <= j <= J -> let '(Lj, Nj, L0j) := sz j in
     (exists fj, lrd f_wav (j - J_min) = Ok fj /\ wfwd64 (pre_lib O) fj Lj Nj L0j s reality nside = Ok (T j)) /\
     dim0 (T j) = 2 * Nj - 1 /\ dim1 (T j) = Lj /\ dim2 (T j) = 2 * Lj - 1 /\ numbers3 (bpow radix2 900) (T j)) ->
  exists g,
    pre_synthesis_fp fpow fsum O J f_wav f_scal L N J_min (fint 2) spin s nside reality (Some (psi, phi)) (Some q) = inv64 (pre_lib O) g L spin s nside reality /\
    rows g = L /\ cols g = 2 * L - 1 /\
    forall l m, 0 <= l < L -> 0 <= m < 2 * L - 1 ->
      finite64 (get2 g l m) /\
      (Cmod (cval (get2 g l m) - get2 (synthesised L J_min J (vals3 psi) (vals1 phi) sz (fun j => vals3 (T j)) Ls (vals2 S)) l m)%C
       <= IZR (N + J + 8) * bpow radix2 (-52) *
          Cmod (get2 (synthesised L J_min J (abs3 (vals3 psi)) (abs1 (vals1 phi)) sz (fun j => abs3 (vals3 (T j))) Ls (abs2 (vals2 S))) l m) + bpow radix2 (-1060))%R.
Proof. exact psy. Qed.
Print Assumptions C71_precompute_synthesis_coefficients.

(** ** C72: the round trip of the JAX and the precompute transforms *)
Theorem C72_jax_round_trip : forall fexp fpow flg fsum O J flm f L N J_min spin s nside reality d B psi phi pa ps qa qs,
  1 <= L <= 2 ^ 52 -> 1 <= N <= L -> N <= 41 -> accurate_loggamma flg -> relative_exp fexp -> accurate_exp fexp -> exact_powers fpow J -> j_max L 2 = Ok J ->
  0 <= J_min < J -> summation fsum -> (0 <= d <= 1)%R -> (bpow radix2 (-900) <= B <= bpow radix2 780)%R -> accurate64 false d (jax_lib O) L spin s nside reality ->
  filters_directional_vectorised_fp fexp fpow flg J L N J_min (fint 2) spin 0 = Ok (psi, phi) ->
  generate_wigner_precomputes_fp fpow J L N J_min (fint 2) s nside false reality = Ok qa -> (pa = None \/ pa = Some qa) ->
  generate_wigner_precomputes_fp fpow J L N J_min (fint 2) s nside true reality = Ok qs -> (ps = None \/ ps = Some qs) ->
  is_harmonic L spin reality (vals2 flm) -> numbers2 B flm -> inv64 (jax_lib O) flm L spin s nside reality = Ok f ->
  exists w sc g,
    jax_analysis_fp fpow O J f L N J_min (fint 2) spin s nside reality (Some (psi, phi)) pa = Ok (w, sc) /\
    jax_synthesis_fp fpow fsum O J w sc L N J_min (fint 2) spin s nside reality (Some (psi, phi)) ps = inv64 (jax_lib O) g L spin s nside reality /\
    harmonic L spin (vals2 g) /\
    forall l q, 0 <= l < L -> 0 <= q < 2 * L - 1 ->
      finite64 (get2 g l q) /\
      (Cmod (cval (get2 g l q) - cval (get2 flm l q))%C
       <= (quad_error 2 300 + bpow radix2 (-32)) * Cmod (cval (get2 flm l q))
          + d * B * (3 * sqrt (IZR (N * (J + 1) * (2 * l + 1))) + 21) + bpow radix2 (-1000))%R.
Proof. exact rt_jax64. Qed.
Print Assumptions C72_jax_round_trip.

Theorem C72_precompute_round_trip : forall fexp fpow flg fsum O J flm f L N J_min spin s nside reality d B psi phi qa qs,
  1 <= L <= 2 ^ 52 -> 1 <= N <= L -> N <= 41 -> accurate_loggamma flg -> relative_exp fexp -> accurate_exp fexp -> exact_powers fpow J -> j_max L 2 = Ok J ->
  0 <= J_min < J -> summation fsum -> (0 <= d <= 1)%R -> (bpow radix2 (-900) <= B <= bpow radix2 780)%R -> accurate64 false d (pre_lib O) L spin s nside reality ->
  filters_directional_vectorised_fp fexp fpow flg J L N J_min (fint 2) spin 0 = Ok (psi, phi) ->
  generate_full_precomputes_fp fpow J L N J_min (fint 2) s nside false reality false = Ok qa ->
  generate_full_precomputes_fp fpow J L N J_min (fint 2) s nside true reality false = Ok qs ->
  is_harmonic L spin reality (vals2 flm) -> numbers2 B flm -> inv64 (pre_lib O) flm L spin s nside reality = Ok f ->
  exists w sc g,
    pre_analysis_fp fpow O J f L N J_min (fint 2) spin s nside reality (Some (psi, phi)) (Some qa) = Ok (w, sc) /\
    pre_synthesis_fp fpow fsum O J w sc L N J_min (fint 2) spin s nside reality (Some (psi, phi)) (Some qs) = inv64 (pre_lib O) g L spin s nside reality /\
    harmonic L spin (vals2 g) /\
    forall l q, 0 <= l < L -> 0 <= q < 2 * L - 1 ->
      finite64 (get2 g l q) /\
      (Cmod (cval (get2 g l q) - cval (get2 flm l q))%C
       <= (quad_error 2 300 + bpow radix2 (-32)) * Cmod (cval (get2 flm l q))
          + d * B * (3 * sqrt (IZR (N * (J + 1) * (2 * l + 1))) + 21) + bpow radix2 (-1000))%R.
Proof. exact rt_pre64. Qed.
Print Assumptions C72_precompute_round_trip.

(** ** C73: the binary64 transforms of base.py, wavelet.py and wavelet_precompute.py compute the same coefficients *)
Theorem C73_same_analysis_coefficients : forall fexp fpow flg O Oj J f flm L N J_min spin s nside reality psi phi sz Ls q p q',
  1 <= L <= 2 ^ 52 -> 1 <= N <= L -> N <= 41 -> accurate_loggamma flg -> relative_exp fexp -> accurate_exp fexp -> exact_powers fpow J -> j_max L 2 = Ok J ->
  filters_directional_vectorised_fp fexp fpow flg J L N J_min (fint 2) spin 0 = Ok (psi, phi) -> sampling_known s nside ->
  generate_wigner_precomputes_fp fpow J L N J_min (fint 2) s nside false reality = Ok q -> (p = None \/ p = Some q) ->
  generate_full_precomputes_fp fpow J L N J_min (fint 2) s nside false reality false = Ok q' ->
  (forall j, LN_j L j N 2 true = Ok (sz j)) -> scal_bandlimit L J_min 2 true = Ok Ls ->
  rows flm = L -> cols flm = 2 * L - 1 ->
  fwd64 O f L spin s nside reality = Ok flm -> fwd64 (jax_lib Oj) f L spin s nside reality = Ok flm -> fwd64 (pre_lib Oj) f L spin s nside reality = Ok flm ->
  exists W W' S,
    analysis_fp fexp fpow flg O J f L N J_min (fint 2) spin 0 s nside reality true
    = (w <- mapM (fun j => let '(Lj, Nj, L0j) := sz j in winv64 O (W j) Lj Nj L0j s reality nside) (zrange J_min (J + 1)) ;;
       sc <- inv64 O S Ls spin s nside reality ;;
       Ok (w, sc)) /\
    jax_analysis_fp fpow Oj J f L N J_min (fint 2) spin s nside reality (Some (psi, phi)) p
    = (w <- mapM (fun j => let '(Lj, Nj, L0j) := sz j in winv64 (jax_lib Oj) (W' j) Lj Nj L0j s reality nside) (zrange J_min (J + 1)) ;;
       sc <- inv64 (jax_lib Oj) S Ls spin s nside reality ;;
       Ok (w, sc)) /\
    pre_analysis_fp fpow Oj J f L N J_min (fint 2) spin s nside reality (Some (psi, phi)) (Some q')
    = (w <- mapM (fun j => let '(Lj, Nj, L0j) := sz j in winv64 (pre_lib Oj) (W' j) Lj Nj L0j s reality nside) (zrange J_min (J + 1)) ;;
       sc <- inv64 (pre_lib Oj) S Ls spin s nside reality ;;
       Ok (w, sc)) /\
    forall j, J_min <= j <= J -> same_array (W' j) (W j).
Proof. exact agree_an. Qed.
Print Assumptions C73_same_analysis_coefficients.

Theorem C73_same_synthesis_coefficients : forall fexp fpow flg fsum O Oj J f_wav f_scal T S L N J_min spin s nside reality psi phi sz Ls q p q',
  1 <= L <= 2 ^ 52 -> 1 <= N <= L -> N <= 41 -> accurate_loggamma flg -> relative_exp fexp -> accurate_exp fexp -> exact_powers fpow J -> j_max L 2 = Ok J ->
  filters_directional_vectorised_fp fexp fpow flg J L N J_min (fint 2) spin 0 = Ok (psi, phi) ->
  generate_wigner_precomputes_fp fpow J L N J_min (fint 2) s nside true reality = Ok q -> (p = None \/ p = Some q) ->
  generate_full_precomputes_fp fpow J L N J_min (fint 2) s nside true reality false = Ok q' ->
  (forall j, LN_j L j N 2 true = Ok (sz j)) -> scal_bandlimit L J_min 2 true = Ok Ls ->
  wavelet_shape_check_fp fpow J f_wav f_scal L N J_min (fint 2) s nside true = Ok tt ->
  rows S = Ls -> cols S = 2 * Ls - 1 ->
  fwd64 O f_scal Ls spin s nside reality = Ok S -> fwd64 (jax_lib Oj) f_scal Ls spin s nside reality = Ok S -> fwd64 (pre_lib Oj) f_scal Ls spin s nside reality = Ok S ->
  (forall j, J_min <= j <= J -> let '(Lj, Nj, L0j) := sz j in
     dim0 (T j) = 2 * Nj - 1 /\ dim1 (T j) = Lj /\ dim2 (T j) = 2 * Lj - 1 /\
     exists fj, lrd f_wav (j - J_min) = Ok fj /\ wfwd64 O fj Lj Nj L0j s reality nside = Ok (T j) /\
       wfwd64 (jax_lib Oj) fj Lj Nj L0j s reality nside = Ok (T j) /\ wfwd64 (pre_lib Oj) fj Lj Nj L0j s reality nside = Ok (T j)) ->
  exists g,
    synthesis_fp fexp fpow flg fsum O J f_wav f_scal L N J_min (fint 2) spin 0 s nside reality true = inv64 O g L spin s nside reality /\
    jax_synthesis_fp fpow fsum Oj J f_wav f_scal L N J_min (fint 2) spin s nside reality (Some (psi, phi)) p = inv64 (jax_lib Oj) g L spin s nside reality /\
    pre_synthesis_fp fpow fsum Oj J f_wav f_scal L N J_min (fint 2) spin s nside reality (Some (psi, phi)) (Some q') = inv64 (pre_lib Oj) g L spin s nside reality.
Proof. exact agree_sy. Qed.
Print Assumptions C73_same_synthesis_coefficients.

(** L = 5, N = 3, scales 1 to 3: every hypothesis of the theorems of C71 is met, with coefficients 1 *)
Example C71_example : exists fexp fpow flg fsum O psi phi sz qa ra qs rs f flm w sc T S,
  accurate_loggamma flg /\ relative_exp fexp /\ accurate_exp fexp /\ exact_powers fpow 3 /\ j_max 5 2 = Ok 3 /\ summation fsum /\
  filters_directional_vectorised_fp fexp fpow flg 3 5 3 1 (fint 2) 0 0 = Ok (psi, phi) /\
  (forall j, LN_j 5 j 3 2 true = Ok (sz j)) /\ scal_bandlimit 5 1 2 true = Ok 2 /\
  generate_wigner_precomputes_fp fpow 3 5 3 1 (fint 2) MW None false false = Ok qa /\ generate_full_precomputes_fp fpow 3 5 3 1 (fint 2) MW None false false false = Ok ra /\
  generate_wigner_precomputes_fp fpow 3 5 3 1 (fint 2) MW None true false = Ok qs /\ generate_full_precomputes_fp fpow 3 5 3 1 (fint 2) MW None true false false = Ok rs /\
  (jf64 O f 5 0 None MW false = Ok flm /\ fwd64 (pre_lib O) f 5 0 MW None false = Ok flm /\
   rows flm = 5 /\ cols flm = 9 /\ numbers2 (bpow radix2 900) flm /\ cval (get2 flm 2 5) = RtoC 1) /\
  (fwd64 (jax_lib O) sc 2 0 MW None false = Ok S /\ fwd64 (pre_lib O) sc 2 0 MW None false = Ok S /\
   rows S = 2 /\ cols S = 3 /\ numbers2 (bpow radix2 900) S /\ cval (get2 S 1 2) = RtoC 1) /\
  forall j, 1 <= j <= 3 -> let '(Lj, Nj, L0j) := sz j in
    (exists fj, lrd w (j - 1) = Ok fj /\
      wfwd64 (jax_lib O) fj Lj Nj L0j MW false None = Ok (T j) /\ wfwd64 (pre_lib O) fj Lj Nj L0j MW false None = Ok (T j)) /\
    dim0 (T j) = 2 * Nj - 1 /\ dim1 (T j) = Lj /\ dim2 (T j) = 2 * Lj - 1 /\ numbers3 (bpow radix2 900) (T j) /\ cval (get3 (T j) 0 0 0) = RtoC 1.
Proof. exact ex_c71. Qed.

(** L = 5, N = 3, scales 1 to 3: a library and transforms accurate to 2^-50 meet all the hypotheses, and
    the coefficients of a signal whose coefficients are 1 come back within 1/100 *)
Example C72_example : exists fexp fpow flg fsum O flm f psi phi qa ra qs rs w sc g w' sc' g',
  accurate_loggamma flg /\ relative_exp fexp /\ accurate_exp fexp /\ exact_powers fpow 3 /\ j_max 5 2 = Ok 3 /\ summation fsum /\
  accurate64 false (bpow radix2 (-50)) (jax_lib O) 5 0 MW None false /\ accurate64 false (bpow radix2 (-50)) (pre_lib O) 5 0 MW None false /\
  filters_directional_vectorised_fp fexp fpow flg 3 5 3 1 (fint 2) 0 0 = Ok (psi, phi) /\
  generate_wigner_precomputes_fp fpow 3 5 3 1 (fint 2) MW None false false = Ok qa /\ generate_full_precomputes_fp fpow 3 5 3 1 (fint 2) MW None false false false = Ok ra /\
  generate_wigner_precomputes_fp fpow 3 5 3 1 (fint 2) MW None true false = Ok qs /\ generate_full_precomputes_fp fpow 3 5 3 1 (fint 2) MW None true false false = Ok rs /\
  is_harmonic 5 0 false (vals2 flm) /\ numbers2 1 flm /\ inv64 (jax_lib O) flm 5 0 MW None false = Ok f /\ inv64 (pre_lib O) flm 5 0 MW None false = Ok f /\
  jax_analysis_fp fpow O 3 f 5 3 1 (fint 2) 0 MW None false (Some (psi, phi)) (Some qa) = Ok (w, sc) /\
  jax_synthesis_fp fpow fsum O 3 w sc 5 3 1 (fint 2) 0 MW None false (Some (psi, phi)) (Some qs) = inv64 (jax_lib O) g 5 0 MW None false /\
  pre_analysis_fp fpow O 3 f 5 3 1 (fint 2) 0 MW None false (Some (psi, phi)) (Some ra) = Ok (w', sc') /\
  pre_synthesis_fp fpow fsum O 3 w' sc' 5 3 1 (fint 2) 0 MW None false (Some (psi, phi)) (Some rs) = inv64 (pre_lib O) g' 5 0 MW None false /\
  cval (get2 flm 2 5) = RtoC 1 /\ (Cmod (cval (get2 g 2 5) - RtoC 1)%C <= 1 / 100)%R /\ (Cmod (cval (get2 g' 2 5) - RtoC 1)%C <= 1 / 100)%R.
Proof. exact ex_c72. Qed.

(** the same signal, maps and library: every hypothesis of the two theorems of C73 is met *)
Example C73_example : exists fexp fpow flg O Oj psi phi sz qa ra qs rs f flm w sc T S,
  accurate_loggamma flg /\ relative_exp fexp /\ accurate_exp fexp /\ exact_powers fpow 3 /\ j_max 5 2 = Ok 3 /\ sampling_known MW None /\
  filters_directional_vectorised_fp fexp fpow flg 3 5 3 1 (fint 2) 0 0 = Ok (psi, phi) /\
  (forall j, LN_j 5 j 3 2 true = Ok (sz j)) /\ scal_bandlimit 5 1 2 true = Ok 2 /\
  generate_wigner_precomputes_fp fpow 3 5 3 1 (fint 2) MW None false false = Ok qa /\ generate_full_precomputes_fp fpow 3 5 3 1 (fint 2) MW None false false false = Ok ra /\
  generate_wigner_precomputes_fp fpow 3 5 3 1 (fint 2) MW None true false = Ok qs /\ generate_full_precomputes_fp fpow 3 5 3 1 (fint 2) MW None true false false = Ok rs /\
  (fwd64 O f 5 0 MW None false = Ok flm /\ fwd64 (jax_lib Oj) f 5 0 MW None false = Ok flm /\ fwd64 (pre_lib Oj) f 5 0 MW None false = Ok flm /\
   rows flm = 5 /\ cols flm = 9 /\ cval (get2 flm 2 5) = RtoC 1) /\
  wavelet_shape_check_fp fpow 3 w sc 5 3 1 (fint 2) MW None true = Ok tt /\
  (fwd64 O sc 2 0 MW None false = Ok S /\ fwd64 (jax_lib Oj) sc 2 0 MW None false = Ok S /\ fwd64 (pre_lib Oj) sc 2 0 MW None false = Ok S /\
   rows S = 2 /\ cols S = 3 /\ cval (get2 S 1 2) = RtoC 1) /\
  forall j, 1 <= j <= 3 -> let '(Lj, Nj, L0j) := sz j in
    dim0 (T j) = 2 * Nj - 1 /\ dim1 (T j) = Lj /\ dim2 (T j) = 2 * Lj - 1 /\ cval (get3 (T j) 0 0 0) = RtoC 1 /\
    exists fj, lrd w (j - 1) = Ok fj /\ wfwd64 O fj Lj Nj L0j MW false None = Ok (T j) /\
      wfwd64 (jax_lib Oj) fj Lj Nj L0j MW false None = Ok (T j) /\ wfwd64 (pre_lib Oj) fj Lj Nj L0j MW false None = Ok (T j).
Proof. exact ex_c73. Qed.
