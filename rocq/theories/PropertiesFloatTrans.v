(** * The transforms in binary64 *)

From Coq Require Import ZArith Reals List Bool.
From Coquelicot Require Import Complex.
From Flocq Require Import Core IEEE754.BinarySingleNaN.
Import ListNotations.
From Verif Require Import Py ModelSamples ModelFilters ModelFloat ModelFloatDir ModelFloatTrans Spec SpecTransforms SpecQuad SpecFp SpecFpDir SpecFpTrans.
From Verif Require Import FloatTransProps.
Import ListNotations.
Open Scope Z_scope.

(** ** C69: analysis and synthesis in binary64 *)
Theorem C69_analysis_coefficients : forall fexp fpow flg O J f flm L N J_min spin s nside reality mr psi phi sz Ls,
  1 <= L <= 2 ^ 52 -> 1 <= N <= L -> N <= 41 -> accurate_loggamma flg -> relative_exp fexp -> accurate_exp fexp -> exact_powers fpow J -> j_max L 2 = Ok J ->
  filters_directional_vectorised_fp fexp fpow flg J L N J_min (fint 2) spin 0 = Ok (psi, phi) -> sampling_known s nside ->
  (forall j, LN_j L j N 2 mr = Ok (sz j)) -> scal_bandlimit L J_min 2 mr = Ok Ls ->
  fwd64 O f L spin s nside reality = Ok flm -> rows flm = L -> cols flm = 2 * L - 1 -> numbers2 (bpow radix2 900) flm ->
  exists W S,
    analysis_fp fexp fpow flg O J f L N J_min (fint 2) spin 0 s nside reality mr
    = (w <- mapM (fun j => let '(Lj, Nj, L0j) := sz j in winv64 O (W j) Lj Nj L0j s reality nside) (zrange J_min (J + 1)) ;;
       sc <- inv64 O S Ls spin s nside reality ;;
       Ok (w, sc)) /\
    (forall j, J_min <= j <= J -> near3 (bpow radix2 (-49)) (bpow radix2 (-1073)) (W j) (wcoefs L (vals3 psi) (vals2 flm) sz j)) /\
    near2 (bpow radix2 (-49)) (bpow radix2 (-1073)) S (scaling_coefs L (vals1 phi) (vals2 flm) Ls).
Proof. exact an64. Qed.
Print Assumptions C69_analysis_coefficients.

Theorem C69_synthesis_coefficients : forall fexp fpow flg fsum O J f_wav f_scal T S L N J_min spin s nside reality mr psi phi sz Ls,
  1 <= L <= 2 ^ 52 -> 1 <= N <= L -> N <= 41 -> accurate_loggamma flg -> relative_exp fexp -> accurate_exp fexp -> exact_powers fpow J -> j_max L 2 = Ok J ->
  filters_directional_vectorised_fp fexp fpow flg J L N J_min (fint 2) spin 0 = Ok (psi, phi) -> summation fsum ->
  (forall j, LN_j L j N 2 mr = Ok (sz j)) -> scal_bandlimit L J_min 2 mr = Ok Ls ->
  wavelet_shape_check_fp fpow J f_wav f_scal L N J_min (fint 2) s nside mr = Ok tt ->
  fwd64 O f_scal Ls spin s nside reality = Ok S -> rows S = Ls -> cols S = 2 * Ls - 1 -> numbers2 (bpow radix2 900) S ->
  (forall j, J_min <= j <= J -> let '(Lj, Nj, L0j) := sz j in
     (exists fj, lrd f_wav (j - J_min) = Ok fj /\ wfwd64 O fj Lj Nj L0j s reality nside = Ok (T j)) /\
     dim0 (T j) = 2 * Nj - 1 /\ dim1 (T j) = Lj /\ dim2 (T j) = 2 * Lj - 1 /\ numbers3 (bpow radix2 900) (T j)) ->
  exists g,
    synthesis_fp fexp fpow flg fsum O J f_wav f_scal L N J_min (fint 2) spin 0 s nside reality mr = inv64 O g L spin s nside reality /\
    rows g = L /\ cols g = 2 * L - 1 /\
    forall l q, 0 <= l < L -> 0 <= q < 2 * L - 1 ->
      finite64 (get2 g l q) /\
      (Cmod (cval (get2 g l q) - get2 (synthesised L J_min J (vals3 psi) (vals1 phi) sz (fun j => vals3 (T j)) Ls (vals2 S)) l q)%C
       <= IZR (N + J + 8) * bpow radix2 (-52) *
          Cmod (get2 (synthesised L J_min J (abs3 (vals3 psi)) (abs1 (vals1 phi)) sz (fun j => abs3 (vals3 (T j))) Ls (abs2 (vals2 S))) l q) + bpow radix2 (-1060))%R.
Proof. exact sy64. Qed.
Print Assumptions C69_synthesis_coefficients.

Theorem C69_shape_check : forall fpow J f_wav f_scal L N J_min s nside mr sz Ls,
  1 <= L <= 2 ^ 52 -> exact_powers fpow J -> j_max L 2 = Ok J -> 0 <= J_min < J -> sampling_known s nside ->
  (forall j, LN_j L j N 2 mr = Ok (sz j)) -> scal_bandlimit L J_min 2 mr = Ok Ls ->
  (wavelet_shape_check_fp fpow J f_wav f_scal L N J_min (fint 2) s nside mr = Ok tt <->
   Z.of_nat (length f_wav) = J - J_min + 1 /\ s2_f_shape Ls s nside = Ok (nshape64 f_scal) /\
   forall j fj, J_min <= j <= J -> lrd f_wav (j - J_min) = Ok fj -> let '(Lj, Nj, _) := sz j in so3_f_shape Lj Nj s nside = Ok (nshape64 fj)).
Proof. exact chk64'. Qed.
Print Assumptions C69_shape_check.

(** ** C70: the round trip in binary64 *)
Theorem C70_round_trip : forall fexp fpow flg fsum O J flm f L N J_min spin s nside reality mr d B,
  1 <= L <= 2 ^ 52 -> 1 <= N <= L -> N <= 41 -> accurate_loggamma flg -> relative_exp fexp -> accurate_exp fexp -> exact_powers fpow J -> j_max L 2 = Ok J ->
  0 <= J_min < J -> summation fsum -> (0 <= d <= 1)%R -> (bpow radix2 (-900) <= B <= bpow radix2 780)%R -> accurate64 true d O L spin s nside reality ->
  is_harmonic L spin reality (vals2 flm) -> numbers2 B flm -> inv64 O flm L spin s nside reality = Ok f ->
  exists w sc g,
    analysis_fp fexp fpow flg O J f L N J_min (fint 2) spin 0 s nside reality mr = Ok (w, sc) /\
    synthesis_fp fexp fpow flg fsum O J w sc L N J_min (fint 2) spin 0 s nside reality mr = inv64 O g L spin s nside reality /\
    harmonic L spin (vals2 g) /\
    forall l q, 0 <= l < L -> 0 <= q < 2 * L - 1 ->
      finite64 (get2 g l q) /\
      (Cmod (cval (get2 g l q) - cval (get2 flm l q))%C
       <= (quad_error 2 300 + bpow radix2 (-32)) * Cmod (cval (get2 flm l q))
          + d * B * (3 * sqrt (IZR (N * (J + 1) * (2 * l + 1))) + 21) + bpow radix2 (-1000))%R.
Proof. exact rt64. Qed.
Print Assumptions C70_round_trip.

(** L = 5, N = 3, spin 1, scales 1 to 3: every hypothesis of the three theorems is met; the coefficients are 1 wherever they may be *)
Example C69_example : exists fexp fpow flg fsum O psi phi f flm w sc T S,
  accurate_loggamma flg /\ relative_exp fexp /\ accurate_exp fexp /\ exact_powers fpow 3 /\ j_max 5 2 = Ok 3 /\ summation fsum /\
  filters_directional_vectorised_fp fexp fpow flg 3 5 3 1 (fint 2) 1 0 = Ok (psi, phi) /\
  (forall j, LN_j 5 j 3 2 false = Ok (5, 3, 0)) /\ scal_bandlimit 5 1 2 false = Ok 5 /\
  fwd64 O f 5 1 MW None false = Ok flm /\ rows flm = 5 /\ cols flm = 9 /\ numbers2 (bpow radix2 900) flm /\ cval (get2 flm 2 5) = RtoC 1 /\
  wavelet_shape_check_fp fpow 3 w sc 5 3 1 (fint 2) MW None false = Ok tt /\
  fwd64 O sc 5 1 MW None false = Ok S /\ rows S = 5 /\ cols S = 9 /\ numbers2 (bpow radix2 900) S /\ cval (get2 S 2 5) = RtoC 1 /\
  forall j, 1 <= j <= 3 -> (exists fj, lrd w (j - 1) = Ok fj /\ wfwd64 O fj 5 3 0 MW false None = Ok (T j)) /\
    dim0 (T j) = 5 /\ dim1 (T j) = 5 /\ dim2 (T j) = 9 /\ numbers3 (bpow radix2 900) (T j) /\ cval (get3 (T j) 2 2 5) = RtoC 1.
Proof. exact ex_c69. Qed.

(** L = 5, N = 3, spin 1, scales 1 to 3, multiresolution: a library and transforms meet all the hypotheses, and
    the coefficients of a signal whose coefficients are all 1 come back within 1/100 *)
Example C70_example : exists fexp fpow flg fsum O flm f w sc g,
  accurate_loggamma flg /\ relative_exp fexp /\ accurate_exp fexp /\ exact_powers fpow 3 /\ j_max 5 2 = Ok 3 /\ summation fsum /\
  accurate64 true 0 O 5 1 MW None false /\ is_harmonic 5 1 false (vals2 flm) /\ numbers2 1 flm /\ inv64 O flm 5 1 MW None false = Ok f /\
  analysis_fp fexp fpow flg O 3 f 5 3 1 (fint 2) 1 0 MW None false true = Ok (w, sc) /\
  synthesis_fp fexp fpow flg fsum O 3 w sc 5 3 1 (fint 2) 1 0 MW None false true = inv64 O g 5 1 MW None false /\
  cval (get2 flm 2 5) = RtoC 1 /\ (Cmod (cval (get2 g 2 5) - RtoC 1)%C <= 1 / 100)%R.
Proof. exact ex_c70. Qed.
