(** * The looped transforms in binary64 *)

From Coq Require Import ZArith Reals List Bool.
From Coquelicot Require Import Complex.
From Flocq Require Import Core IEEE754.BinarySingleNaN.
Import ListNotations.
From Verif Require Import Py ModelSamples ModelFilters ModelFloat ModelFloatDir ModelFloatTrans ModelFloatLoop Spec SpecTransforms SpecQuad SpecFp SpecFpDir SpecFpTrans.
From Verif Require Import FloatLoopTransProps.
Import ListNotations.
Open Scope Z_scope.

(** ** C80: looped analysis and synthesis in binary64 *)
Theorem C80_looped_analysis_coefficients : forall fexp fpow flg O J f flm L N J_min spin s nside reality mr psi phi sz Ls,
  1 <= L <= 2 ^ 52 -> 1 <= N <= L -> N <= 41 -> accurate_loggamma flg -> relative_exp fexp -> accurate_exp fexp -> exact_powers fpow J -> j_max L 2 = Ok J ->
  filters_directional_fp fexp fpow flg J L N J_min (fint 2) spin 0 = Ok (psi, phi) -> sampling_known s nside ->
  (forall j, LN_j L j N 2 mr = Ok (sz j)) -> scal_bandlimit L J_min 2 mr = Ok Ls ->
  fwd64 O f L spin s nside reality = Ok flm -> is_harmonic L spin reality (vals2 flm) -> numbers2 (bpow radix2 900) flm ->
  exists W S,
    analysis_looped_fp fexp fpow flg O J f L N J_min (fint 2) spin 0 s nside reality mr
    = (w <- mapM (fun j => let '(Lj, Nj, L0j) := sz j in winv64 O (W j) Lj Nj L0j s reality nside) (zrange J_min (J + 1)) ;;
       sc <- inv64 O S Ls spin s nside reality ;;
       Ok (w, sc)) /\
    (forall j, J_min <= j <= J -> near3 (bpow radix2 (-49)) (bpow radix2 (-1073)) (W j) (wcoefs L (vals3 psi) (vals2 flm) sz j)) /\
    near2 (bpow radix2 (-49)) (bpow radix2 (-1073)) S (scaling_coefs L (vals1 phi) (vals2 flm) Ls).
Proof. exact anl64. Qed.
Print Assumptions C80_looped_analysis_coefficients.

Theorem C80_looped_synthesis_coefficients : forall fexp fpow flg O J f_wav f_scal T S L N J_min spin s nside reality mr psi phi sz Ls,
  1 <= L <= 2 ^ 52 -> 1 <= N <= L -> N <= 41 -> accurate_loggamma flg -> relative_exp fexp -> accurate_exp fexp -> exact_powers fpow J -> j_max L 2 = Ok J ->
  filters_directional_fp fexp fpow flg J L N J_min (fint 2) spin 0 = Ok (psi, phi) ->
  (forall j, LN_j L j N 2 mr = Ok (sz j)) -> scal_bandlimit L J_min 2 mr = Ok Ls ->
  wavelet_shape_check_fp fpow J f_wav f_scal L N J_min (fint 2) s nside mr = Ok tt ->
  fwd64 O f_scal Ls spin s nside reality = Ok S -> harmonic Ls spin (vals2 S) -> numbers2 (bpow radix2 900) S ->
  (forall j, J_min <= j <= J -> let '(Lj, Nj, L0j) := sz j in
     (exists fj, lrd f_wav (j - J_min) = Ok fj /\ wfwd64 O fj Lj Nj L0j s reality nside = Ok (T j)) /\
     wigner Lj Nj L0j (vals3 (T j)) /\ numbers3 (bpow radix2 900) (T j)) ->
  exists g,
    synthesis_looped_fp fexp fpow flg O J f_wav f_scal L N J_min (fint 2) spin 0 s nside reality mr = inv64 O g L spin s nside reality /\
    rows g = L /\ cols g = 2 * L - 1 /\
    forall l q, 0 <= l < L -> 0 <= q < 2 * L - 1 -> (reality = true -> L - 1 <= q) ->
      finite64 (get2 g l q) /\
      (Cmod (cval (get2 g l q) - get2 (synthesised L J_min J (vals3 psi) (vals1 phi) sz (fun j => vals3 (T j)) Ls (vals2 S)) l q)%C
       <= IZR (N * (J + 1) + 8) * bpow radix2 (-52) *
          Cmod (get2 (synthesised L J_min J (abs3 (vals3 psi)) (abs1 (vals1 phi)) sz (fun j => abs3 (vals3 (T j))) Ls (abs2 (vals2 S))) l q) + bpow radix2 (-1060))%R.
Proof. exact syl64. Qed.
Print Assumptions C80_looped_synthesis_coefficients.

(** the looped pair: the filters are the looped ones, whose sum of squares is known up to three quadrature errors *)
Theorem C80_looped_round_trip : forall fexp fpow flg O J flm f L N J_min spin s nside mr d B,
  1 <= L <= 2 ^ 52 -> 1 <= N <= L -> N <= 41 -> accurate_loggamma flg -> relative_exp fexp -> accurate_exp fexp -> exact_powers fpow J -> j_max L 2 = Ok J ->
  0 <= J_min < J -> (0 <= d <= 1)%R -> (bpow radix2 (-900) <= B <= bpow radix2 780)%R -> accurate64 true d O L spin s nside false ->
  harmonic L spin (vals2 flm) -> numbers2 B flm -> inv64 O flm L spin s nside false = Ok f ->
  exists w sc g,
    analysis_looped_fp fexp fpow flg O J f L N J_min (fint 2) spin 0 s nside false mr = Ok (w, sc) /\
    synthesis_looped_fp fexp fpow flg O J w sc L N J_min (fint 2) spin 0 s nside false mr = inv64 O g L spin s nside false /\
    harmonic L spin (vals2 g) /\
    forall l q, 0 <= l < L -> 0 <= q < 2 * L - 1 ->
      finite64 (get2 g l q) /\
      (Cmod (cval (get2 g l q) - cval (get2 flm l q))%C
       <= (3 * quad_error 2 300 + bpow radix2 (-30)) * Cmod (cval (get2 flm l q))
          + d * B * (3 * sqrt (IZR (N * (J + 1) * (2 * l + 1))) + 21) + bpow radix2 (-1000))%R.
Proof. exact rtl64. Qed.
Print Assumptions C80_looped_round_trip.

(** real signals: the coefficients at the orders m >= 0, which are the ones that an inverse transform of a real signal reads *)
Theorem C80_looped_round_trip_real : forall fexp fpow flg O J flm f L N J_min spin s nside mr d B,
  1 <= L <= 2 ^ 52 -> 1 <= N <= L -> N <= 41 -> accurate_loggamma flg -> relative_exp fexp -> accurate_exp fexp -> exact_powers fpow J -> j_max L 2 = Ok J ->
  0 <= J_min < J -> (0 <= d <= 1)%R -> (bpow radix2 (-900) <= B <= bpow radix2 780)%R -> accurate64 true d O L spin s nside true ->
  is_harmonic L spin true (vals2 flm) -> numbers2 B flm -> inv64 O flm L spin s nside true = Ok f ->
  exists w sc g,
    analysis_looped_fp fexp fpow flg O J f L N J_min (fint 2) spin 0 s nside true mr = Ok (w, sc) /\
    synthesis_looped_fp fexp fpow flg O J w sc L N J_min (fint 2) spin 0 s nside true mr = inv64 O g L spin s nside true /\
    rows g = L /\ cols g = 2 * L - 1 /\
    forall l m, 0 <= l < L -> 0 <= m < L ->
      let z := get2 g l (L - 1 + m) in let x := cval (get2 flm l (L - 1 + m)) in
      finite64 z /\
      (Cmod (cval z - x)%C
       <= (3 * quad_error 2 300 + bpow radix2 (-30)) * Cmod x
          + d * B * (3 * sqrt (IZR (N * (J + 1) * (2 * l + 1))) + 21) + bpow radix2 (-1000))%R.
Proof. exact rtlr64. Qed.
Print Assumptions C80_looped_round_trip_real.

(** L = 5, N = 3, spin 0, scales 1 to 3, a real signal: every hypothesis of the first two theorems is met *)
Example C80_example : exists fexp fpow flg O psi phi f flm w sc T S,
  accurate_loggamma flg /\ relative_exp fexp /\ accurate_exp fexp /\ exact_powers fpow 3 /\ j_max 5 2 = Ok 3 /\
  filters_directional_fp fexp fpow flg 3 5 3 1 (fint 2) 0 0 = Ok (psi, phi) /\ sampling_known MW None /\
  (forall j, LN_j 5 j 3 2 false = Ok (5, 3, 0)) /\ scal_bandlimit 5 1 2 false = Ok 5 /\
  fwd64 O f 5 0 MW None true = Ok flm /\ is_harmonic 5 0 true (vals2 flm) /\ numbers2 (bpow radix2 900) flm /\
  get2 (vals2 flm) 2 5 = RtoC 1 /\ get2 (vals2 flm) 2 3 = RtoC (-1) /\
  wavelet_shape_check_fp fpow 3 w sc 5 3 1 (fint 2) MW None false = Ok tt /\
  fwd64 O sc 5 0 MW None true = Ok S /\ harmonic 5 0 (vals2 S) /\ numbers2 (bpow radix2 900) S /\ get2 (vals2 S) 2 5 = RtoC 1 /\
  forall j, 1 <= j <= 3 -> (exists fj, lrd w (j - 1) = Ok fj /\ wfwd64 O fj 5 3 0 MW true None = Ok (T j)) /\
    wigner 5 3 0 (vals3 (T j)) /\ numbers3 (bpow radix2 900) (T j) /\ cval (get3 (T j) 2 2 5) = RtoC 1.
Proof. exact ex_c80. Qed.

(** L = 5, N = 3, spin 1, scales 1 to 3, multiresolution: the hypotheses of the round trip are met, and
    the coefficients of a signal whose coefficients are all 1 come back within 2/100 *)
Example C80_round_trip_example : exists fexp fpow flg O flm f w sc g,
  accurate_loggamma flg /\ relative_exp fexp /\ accurate_exp fexp /\ exact_powers fpow 3 /\ j_max 5 2 = Ok 3 /\
  accurate64 true 0 O 5 1 MW None false /\ harmonic 5 1 (vals2 flm) /\ numbers2 1 flm /\ inv64 O flm 5 1 MW None false = Ok f /\
  analysis_looped_fp fexp fpow flg O 3 f 5 3 1 (fint 2) 1 0 MW None false true = Ok (w, sc) /\
  synthesis_looped_fp fexp fpow flg O 3 w sc 5 3 1 (fint 2) 1 0 MW None false true = inv64 O g 5 1 MW None false /\
  cval (get2 flm 2 5) = RtoC 1 /\ (Cmod (cval (get2 g 2 5) - RtoC 1)%C <= 2 / 100)%R.
Proof. exact ex_c80b. Qed.

(** the same for a real signal with coefficients 1 at the orders m >= 0 *)
Example C80_round_trip_real_example : exists fexp fpow flg O flm f w sc g,
  accurate_loggamma flg /\ relative_exp fexp /\ accurate_exp fexp /\ exact_powers fpow 3 /\ j_max 5 2 = Ok 3 /\
  accurate64 true 0 O 5 0 MW None true /\ is_harmonic 5 0 true (vals2 flm) /\ numbers2 1 flm /\ inv64 O flm 5 0 MW None true = Ok f /\
  analysis_looped_fp fexp fpow flg O 3 f 5 3 1 (fint 2) 0 0 MW None true true = Ok (w, sc) /\
  synthesis_looped_fp fexp fpow flg O 3 w sc 5 3 1 (fint 2) 0 0 MW None true true = inv64 O g 5 0 MW None true /\
  cval (get2 flm 2 3) = RtoC (-1) /\ cval (get2 flm 2 5) = RtoC 1 /\ (Cmod (cval (get2 g 2 5) - RtoC 1)%C <= 2 / 100)%R.
Proof. exact ex_c80c. Qed.
