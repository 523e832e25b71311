(** Statements and proofs for PropertiesFloatBack.v *)

From Coq Require Import ZArith Reals List Bool Permutation Lia Lra Psatz FunctionalExtensionality.
From Coquelicot Require Import Rcomplements Complex.
From Flocq Require Import Core Relative IEEE754.BinarySingleNaN.
From Verif Require Import Py PyFacts ModelSamples SamplesFacts ModelFilters ModelTransforms FiltersFacts AxisymFacts DirectionFacts DirFilterFacts
  Spec SpecTransforms SpecQuad FiltersProps TransformsFacts BackendFacts LoopFacts ReconFacts RoundFacts TransformsProps SignalProps FrameProps.
From Verif Require Import ModelFloat ModelFloatDir ModelFloatTrans ModelFloatJax ModelFloatBack FloatProps SpecFp SpecFpDir SpecFpTrans SpecFpJax SpecFpBack FloatFilterProps FloatDefault FloatAccProps FloatDirFacts FloatDirProps
  FloatDirFilterProps FloatSpinProps FloatTransFacts FloatTransFilt FloatTransErr FloatTransCore FloatTransRound FloatTransSum FloatTransTrip FloatTransClosed FloatTransProps FloatJaxFacts FloatJaxProps FloatBackFacts SamplesProps.
From Verif Require Import FloatFacts.
Import ListNotations.
Open Scope Z_scope.

(*T The torch and SSHT transforms and flm_to_analysis in binary64 *)
(*! From Coq Require Import ZArith Reals List Bool. *)
(*! From Coquelicot Require Import Complex. *)
(*! From Flocq Require Import Core IEEE754.BinarySingleNaN. *)
(*! Import ListNotations. *)
(*! From Verif Require Import Py ModelSamples ModelFilters ModelTransforms ModelFloat ModelFloatDir ModelFloatTrans ModelFloatJax ModelFloatBack Spec SpecTransforms SpecQuad SpecFp SpecFpDir SpecFpTrans SpecFpJax SpecFpBack. *)

Lemma setup fexp fpow flg J L N J_min spin psi phi :
  1 <= L <= 2 ^ 52 -> 1 <= N <= L -> N <= 41 -> accurate_loggamma flg -> relative_exp fexp -> accurate_exp fexp -> exact_powers fpow J -> j_max L 2 = Ok J ->
  filters_directional_vectorised_fp fexp fpow flg J L N J_min (fint 2) spin 0 = Ok (psi, phi) ->
  (0 <= J_min < J /\ J <= 52 /\ 2 <= L) /\
  (dim0 psi = J + 1 /\ dim1 psi = L /\ dim2 psi = 2 * L - 1 /\ len1 phi = L) /\
  (forall j, J_min <= j <= J -> LN_j_fp fpow L j N (fint 2) true = Ok (Lj_of L j 2 true, Nj_of L j N 2 true, L0_of j 2 true)) /\
  scal_bandlimit_fp fpow L J_min (fint 2) true = Ok (Ls_of L J_min 2 true) /\ 1 <= Ls_of L J_min 2 true <= L /\
  (forall j, J_min <= j <= J -> 0 <= L0_of j 2 true <= Lj_of L j 2 true /\ 1 <= Lj_of L j 2 true <= L /\ 1 <= Nj_of L j N 2 true <= L) /\
  Lj_of L (J - 1) 2 true = Lj_of L J 2 true /\ Nj_of L (J - 1) N 2 true = Nj_of L J N 2 true /\
  (forall flm j, rows flm = L -> cols flm = 2 * L - 1 -> numbers2 (bpow radix2 900) flm -> J_min <= j <= J ->
     near3 (bpow radix2 (-49)) (bpow radix2 (-1073)) (wj L (fun j => Lj_of L j 2 true) (fun j => Nj_of L j N 2 true) (fun j => L0_of j 2 true) psi flm j)
       (wcoefs L (vals3 psi) (vals2 flm) (szf L N 2 true) j)) /\
  (forall flm, rows flm = L -> cols flm = 2 * L - 1 -> numbers2 (bpow radix2 900) flm ->
     near2 (bpow radix2 (-49)) (bpow radix2 (-1073)) (sca64 L phi flm (Ls_of L J_min 2 true)) (scaling_coefs L (vals1 phi) (vals2 flm) (Ls_of L J_min 2 true))).
Proof.
  intros HL HN HN' Hg Hr Hf HP EJ EF.
  pose proof (filt64 fexp fpow flg J L N J_min spin psi phi HL ltac:(lia) Hg Hr Hf HP EJ (or_intror EF)) as HF. pose proof (f_range _ _ _ _ _ _ _ _ HF) as HJ.
  pose proof (J_le L J HL EJ) as HJ52. destruct (dims L N J_min J spin psi phi HF) as (D0 & D1 & D2 & D3 & _).
  pose proof (szs fpow L N J true HL ltac:(lia) HP) as SZ. destruct (top_sizes L N J ltac:(lia) EJ ltac:(lia)) as [TS1 TS2].
  split; [|split; [auto|split; [|split; [apply SZ; lia|split; [apply (HLs L J_min true HL)|split; [|split; [exact TS1|split; [exact TS2|split]]]]]]]].
  - split; [lia|]. split; [lia|]. destruct (Z.eq_dec L 1) as [->|]; [|lia]. exfalso. destruct j_max_5_2 as (_ & E1' & _). rewrite E1' in EJ. apply Ok_inj in EJ. lia.
  - intros j Hj. apply SZ. lia.
  - intros j Hj. destruct (Hsz L N J_min J spin true psi phi HL HN HF j Hj) as (Z1 & Z2 & Z3 & Z4). lia.
  - intros flm j R1 R2 Hn Hj. apply (same3_near _ _ _ _ _ (wavj_same L _ _ _ j psi flm)). apply (wav_near L N J_min J spin true psi phi); auto. intros. apply (size_psi fexp fpow flg J L N J_min spin psi phi); auto; lia.
  - intros flm R1 R2 Hn. apply (sca_near L N J_min J spin true psi phi); auto. intros. apply (size_phi fexp fpow flg J L N J_min spin psi phi); auto; lia.
Qed.

(*% ** C74: what the torch and the SSHT transforms hand to s2fft *)

(*@ C74_torch_analysis_coefficients *)
Lemma tan : forall fexp fpow flg O J f flm L N J_min spin s nside reality psi phi sz Ls q,
  1 <= L <= 2 ^ 52 -> 1 <= N <= L -> N <= 41 -> accurate_loggamma flg -> relative_exp fexp -> accurate_exp fexp -> exact_powers fpow J -> j_max L 2 = Ok J ->
  filters_directional_vectorised_fp fexp fpow flg J L N J_min (fint 2) spin 0 = Ok (psi, phi) ->
  generate_full_precomputes_fp fpow J L N J_min (fint 2) s nside false reality false = Ok q ->
  (forall j, LN_j L j N 2 true = Ok (sz j)) -> scal_bandlimit L J_min 2 true = Ok Ls ->
  fwd64 (torch_lib O) f L spin s nside reality = Ok flm -> rows flm = L -> cols flm = 2 * L - 1 -> numbers2 (bpow radix2 900) flm ->
  exists W S,
    torch_analysis_fp fpow O J f L N J_min (fint 2) spin s nside reality (Some (psi, phi)) (Some q)
    = (w <- mapM (fun j => let '(Lj, Nj, L0j) := sz j in winv64 (torch_lib O) (W j) Lj Nj L0j s reality nside) (zrange J_min (J + 1)) ;;
       sc <- inv64 (torch_lib O) S Ls spin s nside reality ;;
       Ok (map Some w, sc)) /\
    (forall j, J_min <= j <= J -> near3 (bpow radix2 (-49)) (bpow radix2 (-1073)) (W j) (wcoefs L (vals3 psi) (vals2 flm) sz j)) /\
    near2 (bpow radix2 (-49)) (bpow radix2 (-1073)) S (scaling_coefs L (vals1 phi) (vals2 flm) Ls).
Proof.
  intros fexp fpow flg O J f flm L N J_min spin s nside reality psi phi sz Ls q HL HN HN' Hg Hr Hf HP EJ EF Eq Esz ELs Ef R1 R2 Hn.
  destruct (setup fexp fpow flg J L N J_min spin psi phi HL HN HN' Hg Hr Hf HP EJ EF) as ((HJ & HJ52 & HL2) & (D0 & D1 & D2 & D3) & SZ & SL & HLs' & Szj & TS1 & TS2 & HW & HS0).
  rewrite (sz_eq L N 2 true sz ltac:(lra) Esz), (Ls_eq L J_min 2 true Ls ltac:(lra) ELs).
  rewrite (gen_full64 fpow L N J_min J (fint 2) (fun j => Lj_of L j 2 true) (fun j => Nj_of L j N 2 true) (fun j => L0_of j 2 true) (Ls_of L J_min 2 true)) in Eq by (auto; lia). apply Ok_inj in Eq. subst q. cbn [negb].
  exists (wj L (fun j => Lj_of L j 2 true) (fun j => Nj_of L j N 2 true) (fun j => L0_of j 2 true) psi flm), (sca64 L phi flm (Ls_of L J_min 2 true)). split; [|split; [intros j Hj; now apply HW|now apply HS0]].
  rewrite (tan64 fpow L N J_min J (fint 2) (fun j => Lj_of L j 2 true) (fun j => Nj_of L j N 2 true) (fun j => L0_of j 2 true) (Ls_of L J_min 2 true)) with (nside := nside); auto; try lia.
  - rewrite Ef. reflexivity.
  - intros flm' E. rewrite Ef in E. apply Ok_inj in E. subst flm'. auto.
Qed.

(*@ C74_ssht_analysis_coefficients *)
Lemma can : forall fexp fpow flg O J f flm L N J_min spin s nside reality psi phi sz Ls,
  1 <= L <= 2 ^ 52 -> 1 <= N <= L -> N <= 41 -> accurate_loggamma flg -> relative_exp fexp -> accurate_exp fexp -> exact_powers fpow J -> j_max L 2 = Ok J ->
  filters_directional_vectorised_fp fexp fpow flg J L N J_min (fint 2) spin 0 = Ok (psi, phi) ->
  ssht_scheme s -> (reality = true -> nd_real64 f = f) ->
  (forall j, LN_j L j N 2 true = Ok (sz j)) -> scal_bandlimit L J_min 2 true = Ok Ls ->
  fwd64 (ssht_lib O) f L spin s nside reality = Ok flm -> rows flm = L -> cols flm = 2 * L - 1 -> numbers2 (bpow radix2 900) flm ->
  exists W S,
    ssht_analysis_fp fpow O J f L N J_min (fint 2) spin s reality (Some (psi, phi))
    = (w <- mapM (fun j => let '(Lj, Nj, L0j) := sz j in winv64 (ssht_lib O) (W j) Lj Nj L0j s reality nside) (zrange J_min (J + 1)) ;;
       sc <- inv64 (ssht_lib O) S Ls spin s nside reality ;;
       Ok (w, sc)) /\
    (forall j, J_min <= j <= J -> near3 (bpow radix2 (-49)) (bpow radix2 (-1073)) (W j) (wcoefs L (vals3 psi) (vals2 flm) sz j)) /\
    near2 (bpow radix2 (-49)) (bpow radix2 (-1073)) S (scaling_coefs L (vals1 phi) (vals2 flm) Ls).
Proof.
  intros fexp fpow flg O J f flm L N J_min spin s nside reality psi phi sz Ls HL HN HN' Hg Hr Hf HP EJ EF Hs Hre Esz ELs Ef R1 R2 Hn.
  destruct (setup fexp fpow flg J L N J_min spin psi phi HL HN HN' Hg Hr Hf HP EJ EF) as ((HJ & HJ52 & HL2) & (D0 & D1 & D2 & D3) & SZ & SL & HLs' & Szj & TS1 & TS2 & HW & HS0).
  rewrite (sz_eq L N 2 true sz ltac:(lra) Esz), (Ls_eq L J_min 2 true Ls ltac:(lra) ELs).
  exists (wj L (fun j => Lj_of L j 2 true) (fun j => Nj_of L j N 2 true) (fun j => L0_of j 2 true) psi flm), (sca64 L phi flm (Ls_of L J_min 2 true)). split; [|split; [intros j Hj; now apply HW|now apply HS0]].
  rewrite (can64 fpow L N J_min J (fint 2) (fun j => Lj_of L j 2 true) (fun j => Nj_of L j N 2 true) (fun j => L0_of j 2 true) (Ls_of L J_min 2 true)) with (nside := nside); auto; try lia.
  - rewrite Ef. reflexivity.
  - intros flm' E. rewrite Ef in E. apply Ok_inj in E. subst flm'. auto.
Qed.

(*@ C74_torch_synthesis_coefficients *)
Lemma tsy : forall fexp fpow flg fsum O J f_wav f_scal T S L N J_min spin s nside reality psi phi sz Ls q,
  1 <= L <= 2 ^ 52 -> 1 <= N <= L -> N <= 41 -> accurate_loggamma flg -> relative_exp fexp -> accurate_exp fexp -> exact_powers fpow J -> j_max L 2 = Ok J ->
  filters_directional_vectorised_fp fexp fpow flg J L N J_min (fint 2) spin 0 = Ok (psi, phi) -> summation fsum ->
  generate_full_precomputes_fp fpow J L N J_min (fint 2) s nside true reality false = Ok q ->
  (forall j, LN_j L j N 2 true = Ok (sz j)) -> scal_bandlimit L J_min 2 true = Ok Ls ->
  fwd64 (torch_lib O) f_scal Ls spin s nside reality = Ok S -> rows S = Ls -> cols S = 2 * Ls - 1 -> numbers2 (bpow radix2 900) S ->
  (forall j, J_min <= j <= J -> let '(Lj, Nj, L0j) := sz j in
     (exists fj, lrd f_wav (j - J_min) = Ok fj /\ wfwd64 (torch_lib O) fj Lj Nj L0j s reality nside = Ok (T j)) /\
     dim0 (T j) = 2 * Nj - 1 /\ dim1 (T j) = Lj /\ dim2 (T j) = 2 * Lj - 1 /\ numbers3 (bpow radix2 900) (T j)) ->
  exists g,
    torch_synthesis_fp fpow fsum O J f_wav f_scal L N J_min (fint 2) spin s nside reality (Some (psi, phi)) (Some q) = inv64 (torch_lib O) g L spin s nside reality /\
    rows g = L /\ cols g = 2 * L - 1 /\
    forall l m, 0 <= l < L -> 0 <= m < 2 * L - 1 ->
      finite64 (get2 g l m) /\
      (Cmod (cval (get2 g l m) - get2 (synthesised L J_min J (vals3 psi) (vals1 phi) sz (fun j => vals3 (T j)) Ls (vals2 S)) l m)%C
       <= IZR (N + J + 8) * bpow radix2 (-52) *
          Cmod (get2 (synthesised L J_min J (abs3 (vals3 psi)) (abs1 (vals1 phi)) sz (fun j => abs3 (vals3 (T j))) Ls (abs2 (vals2 S))) l m) + bpow radix2 (-1060))%R.
Proof.
  intros fexp fpow flg fsum O J f_wav f_scal T S L N J_min spin s nside reality psi phi sz Ls q HL HN HN' Hg Hr Hf HP EJ EF Hfs Eq Esz ELs ES R1 R2 Hn HT.
  destruct (syn_core fexp fpow flg fsum (torch_lib O) J f_wav f_scal T S L N J_min spin s nside reality psi phi sz Ls
    (torch_synthesis_fp fpow fsum O J f_wav f_scal L N J_min (fint 2) spin s nside reality (Some (psi, phi)) (Some q)) HL HN HN' Hg Hr Hf HP EJ EF Hfs Esz ELs ES R1 R2 Hn HT) as (g & E1 & E2 & E3 & E4 & _); [|now exists g].
  intros HJ SZ SL HLs' Szj D0 D1 D2 D3 HL2 HS HT'.
  destruct (top_sizes L N J ltac:(lia) EJ ltac:(lia)) as [TS1 TS2].
  rewrite (gen_full64 fpow L N J_min J (fint 2) (fun j => Lj_of L j 2 true) (fun j => Nj_of L j N 2 true) (fun j => L0_of j 2 true) (Ls_of L J_min 2 true)) in Eq by (auto; lia). apply Ok_inj in Eq. subst q. cbn [negb].
  rewrite torch_sy_as.
  apply (psy64 fpow fsum L N J_min J (fint 2) (fun j => Lj_of L j 2 true) (fun j => Nj_of L j N 2 true) (fun j => L0_of j 2 true) (Ls_of L J_min 2 true)); auto; lia.
Qed.

(*@ C74_ssht_synthesis_coefficients *)
Lemma csy : forall fexp fpow flg fsum O J f_wav f_scal T S L N J_min spin s nside reality psi phi sz Ls,
  1 <= L <= 2 ^ 52 -> 1 <= N <= L -> N <= 41 -> accurate_loggamma flg -> relative_exp fexp -> accurate_exp fexp -> exact_powers fpow J -> j_max L 2 = Ok J ->
  filters_directional_vectorised_fp fexp fpow flg J L N J_min (fint 2) spin 0 = Ok (psi, phi) -> summation fsum ->
  ssht_scheme s ->
  (forall j, LN_j L j N 2 true = Ok (sz j)) -> scal_bandlimit L J_min 2 true = Ok Ls ->
  fwd64 (ssht_lib O) f_scal Ls spin s nside reality = Ok S -> rows S = Ls -> cols S = 2 * Ls - 1 -> numbers2 (bpow radix2 900) S ->
  (forall j, J_min <= j <= J -> let '(Lj, Nj, L0j) := sz j in
     (exists fj, lrd f_wav (j - J_min) = Ok fj /\ wfwd64 (ssht_lib O) fj Lj Nj L0j s reality nside = Ok (T j)) /\
     dim0 (T j) = 2 * Nj - 1 /\ dim1 (T j) = Lj /\ dim2 (T j) = 2 * Lj - 1 /\ numbers3 (bpow radix2 900) (T j)) ->
  exists g,
    ssht_synthesis_fp fpow fsum O J f_wav f_scal L N J_min (fint 2) spin s reality (Some (psi, phi)) = inv64 (ssht_lib O) g L spin s nside reality /\
    rows g = L /\ cols g = 2 * L - 1 /\
    forall l m, 0 <= l < L -> 0 <= m < 2 * L - 1 ->
      finite64 (get2 g l m) /\
      (Cmod (cval (get2 g l m) - get2 (synthesised L J_min J (vals3 psi) (vals1 phi) sz (fun j => vals3 (T j)) Ls (vals2 S)) l m)%C
       <= IZR (N + J + 8) * bpow radix2 (-52) *
          Cmod (get2 (synthesised L J_min J (abs3 (vals3 psi)) (abs1 (vals1 phi)) sz (fun j => abs3 (vals3 (T j))) Ls (abs2 (vals2 S))) l m) + bpow radix2 (-1060))%R.
Proof.
  intros fexp fpow flg fsum O J f_wav f_scal T S L N J_min spin s nside reality psi phi sz Ls HL HN HN' Hg Hr Hf HP EJ EF Hfs Hs Esz ELs ES R1 R2 Hn HT.
  destruct (syn_core fexp fpow flg fsum (ssht_lib O) J f_wav f_scal T S L N J_min spin s nside reality psi phi sz Ls
    (ssht_synthesis_fp fpow fsum O J f_wav f_scal L N J_min (fint 2) spin s reality (Some (psi, phi))) HL HN HN' Hg Hr Hf HP EJ EF Hfs Esz ELs ES R1 R2 Hn HT) as (g & E1 & E2 & E3 & E4 & _); [|now exists g].
  intros HJ SZ SL HLs' Szj D0 D1 D2 D3 HL2 HS HT'.
  apply (csy64 fpow fsum L N J_min J (fint 2) (fun j => Lj_of L j 2 true) (fun j => Nj_of L j N 2 true) (fun j => L0_of j 2 true) (Ls_of L J_min 2 true)); auto; lia.
Qed.

(*% ** C75: the round trip of the torch and the SSHT transforms *)

(*@ C75_torch_round_trip *)
Lemma rt_torch64 : forall fexp fpow flg fsum O J flm f L N J_min spin s nside reality d B psi phi qa qs,
  1 <= L <= 2 ^ 52 -> 1 <= N <= L -> N <= 41 -> accurate_loggamma flg -> relative_exp fexp -> accurate_exp fexp -> exact_powers fpow J -> j_max L 2 = Ok J ->
  0 <= J_min < J -> summation fsum -> (0 <= d <= 1)%R -> (bpow radix2 (-900) <= B <= bpow radix2 780)%R -> accurate64 false d (torch_lib O) L spin s nside reality ->
  filters_directional_vectorised_fp fexp fpow flg J L N J_min (fint 2) spin 0 = Ok (psi, phi) ->
  generate_full_precomputes_fp fpow J L N J_min (fint 2) s nside false reality false = Ok qa ->
  generate_full_precomputes_fp fpow J L N J_min (fint 2) s nside true reality false = Ok qs ->
  is_harmonic L spin reality (vals2 flm) -> numbers2 B flm -> inv64 (torch_lib O) flm L spin s nside reality = Ok f ->
  exists w sc g,
    torch_analysis_fp fpow O J f L N J_min (fint 2) spin s nside reality (Some (psi, phi)) (Some qa) = Ok (map Some w, sc) /\
    torch_synthesis_fp fpow fsum O J w sc L N J_min (fint 2) spin s nside reality (Some (psi, phi)) (Some qs) = inv64 (torch_lib O) g L spin s nside reality /\
    harmonic L spin (vals2 g) /\
    forall l q, 0 <= l < L -> 0 <= q < 2 * L - 1 ->
      finite64 (get2 g l q) /\
      (Cmod (cval (get2 g l q) - cval (get2 flm l q))%C
       <= (quad_error 2 300 + bpow radix2 (-32)) * Cmod (cval (get2 flm l q))
          + d * B * (3 * sqrt (IZR (N * (J + 1) * (2 * l + 1))) + 21) + bpow radix2 (-1000))%R.
Proof.
  intros fexp fpow flg fsum O J flm0 f L N J_min spin s nside reality d B psi phi qa qs HL HN HN' Hg Hr Hf HP EJ _ Hfs Hd HB HA EF Eqa Eqs Hh0 Hn0 Ef0.
  destruct (setup fexp fpow flg J L N J_min spin psi phi HL HN HN' Hg Hr Hf HP EJ EF) as ((HJ & HJ52 & HL2) & (D0 & D1 & D2 & D3) & SZ & SL & HLs' & Szj & TS1 & TS2 & HW & HS0).
  rewrite (gen_full64 fpow L N J_min J (fint 2) (fun j => Lj_of L j 2 true) (fun j => Nj_of L j N 2 true) (fun j => L0_of j 2 true) (Ls_of L J_min 2 true)) in Eqa by (auto; lia). apply Ok_inj in Eqa. subst qa. cbn [negb].
  rewrite (gen_full64 fpow L N J_min J (fint 2) (fun j => Lj_of L j 2 true) (fun j => Nj_of L j N 2 true) (fun j => L0_of j 2 true) (Ls_of L J_min 2 true)) in Eqs by (auto; lia). apply Ok_inj in Eqs. subst qs. cbn [negb].
  assert (HC : exists w sc g, (a <- fwd64 (torch_lib O) f L spin s nside reality ;;
         w <- mapM (fun j => winv64 (torch_lib O) (wj L (fun j => Lj_of L j 2 true) (fun j => Nj_of L j N 2 true) (fun j => L0_of j 2 true) psi a j) (Lj_of L j 2 true) (Nj_of L j N 2 true) (L0_of j 2 true) s reality nside) (zrange J_min (J + 1)) ;;
         sc <- inv64 (torch_lib O) (sca64 L phi a (Ls_of L J_min 2 true)) (Ls_of L J_min 2 true) spin s nside reality ;;
         Ok (w, sc)) = Ok (w, sc) /\
    torch_synthesis_fp fpow fsum O J w sc L N J_min (fint 2) spin s nside reality (Some (psi, phi)) (Some (Some (SKern L 0 reality s nside false), Some (SKern (Ls_of L J_min 2 true) 0 reality s nside true), map (wk (fun j => Lj_of L j 2 true) (fun j => Nj_of L j N 2 true) s nside true reality) (zrange J_min J))) = inv64 (torch_lib O) g L spin s nside reality /\ harmonic L spin (vals2 g) /\
    forall l q, 0 <= l < L -> 0 <= q < 2 * L - 1 -> finite64 (get2 g l q) /\
      (Cmod (cval (get2 g l q) - cval (get2 flm0 l q))%C <= (quad_error 2 300 + bpow radix2 (-32)) * Cmod (cval (get2 flm0 l q))
          + d * B * (3 * sqrt (IZR (N * (J + 1) * (2 * l + 1))) + 21) + bpow radix2 (-1000))%R).
  { apply (rt_core fexp fpow flg fsum (torch_lib O) J flm0 f L N J_min spin s nside reality true false d B psi phi (fun a j => wj L (fun j => Lj_of L j 2 true) (fun j => Nj_of L j N 2 true) (fun j => L0_of j 2 true) psi a j)
      _ (fun w sc => torch_synthesis_fp fpow fsum O J w sc L N J_min (fint 2) spin s nside reality (Some (psi, phi)) (Some (Some (SKern L 0 reality s nside false), Some (SKern (Ls_of L J_min 2 true) 0 reality s nside true), map (wk (fun j => Lj_of L j 2 true) (fun j => Nj_of L j N 2 true) s nside true reality) (zrange J_min J))))); auto.
    - intros. apply wavj_same.
    - intros w sc _ HS HT. rewrite torch_sy_as. apply (psy64 fpow fsum L N J_min J (fint 2) (fun j => Lj_of L j 2 true) (fun j => Nj_of L j N 2 true) (fun j => L0_of j 2 true) (Ls_of L J_min 2 true)); auto; lia. }
  destruct HC as (w & sc & g & EA & ES & EH & G). exists w, sc, g. split; [|auto].
  assert (SH : forall a, fwd64 (torch_lib O) f L spin s nside reality = Ok a -> rows a = L /\ cols a = 2 * L - 1).
  { intros a Ea. destruct HA as [A1 _]. destruct (A1 L ltac:(lia) flm0 B) as (f' & b & E1 & _ & E2 & ((X1 & X2 & _) & _) & _); auto.
    - assert (bpow radix2 780 <= bpow radix2 800)%R by (apply bpow_le; lia). lra.
    - assert (f' = f) as -> by congruence. assert (b = a) as -> by congruence. auto. }
  rewrite (tan64 fpow L N J_min J (fint 2) (fun j => Lj_of L j 2 true) (fun j => Nj_of L j N 2 true) (fun j => L0_of j 2 true) (Ls_of L J_min 2 true)); auto; try lia.
  apply bind_inv in EA as (a & E1 & EA). apply bind_inv in EA as (w' & E2 & EA). apply bind_inv in EA as (sc' & E3 & EA). apply Ok_inj in EA.
  pose proof (f_equal fst EA) as X1. pose proof (f_equal snd EA) as X2. cbn [fst snd] in X1, X2. subst w' sc'.
  rewrite E1. cbn [bind]. rewrite E2. cbn [bind]. rewrite E3. reflexivity.
Qed.

(*@ C75_ssht_round_trip *)
Lemma rt_ssht64 : forall fexp fpow flg fsum O J flm f L N J_min spin s nside reality d B psi phi,
  1 <= L <= 2 ^ 52 -> 1 <= N <= L -> N <= 41 -> accurate_loggamma flg -> relative_exp fexp -> accurate_exp fexp -> exact_powers fpow J -> j_max L 2 = Ok J ->
  0 <= J_min < J -> summation fsum -> (0 <= d <= 1)%R -> (bpow radix2 (-900) <= B <= bpow radix2 780)%R -> accurate64 false d (ssht_lib O) L spin s nside reality ->
  filters_directional_vectorised_fp fexp fpow flg J L N J_min (fint 2) spin 0 = Ok (psi, phi) ->
  ssht_scheme s -> (reality = true -> nd_real64 f = f) ->
  is_harmonic L spin reality (vals2 flm) -> numbers2 B flm -> inv64 (ssht_lib O) flm L spin s nside reality = Ok f ->
  exists w sc g,
    ssht_analysis_fp fpow O J f L N J_min (fint 2) spin s reality (Some (psi, phi)) = Ok (w, sc) /\
    ssht_synthesis_fp fpow fsum O J w sc L N J_min (fint 2) spin s reality (Some (psi, phi)) = inv64 (ssht_lib O) g L spin s nside reality /\
    harmonic L spin (vals2 g) /\
    forall l q, 0 <= l < L -> 0 <= q < 2 * L - 1 ->
      finite64 (get2 g l q) /\
      (Cmod (cval (get2 g l q) - cval (get2 flm l q))%C
       <= (quad_error 2 300 + bpow radix2 (-32)) * Cmod (cval (get2 flm l q))
          + d * B * (3 * sqrt (IZR (N * (J + 1) * (2 * l + 1))) + 21) + bpow radix2 (-1000))%R.
Proof.
  intros fexp fpow flg fsum O J flm0 f L N J_min spin s nside reality d B psi phi HL HN HN' Hg Hr Hf HP EJ _ Hfs Hd HB HA EF Hs Hre Hh0 Hn0 Ef0.
  destruct (setup fexp fpow flg J L N J_min spin psi phi HL HN HN' Hg Hr Hf HP EJ EF) as ((HJ & HJ52 & HL2) & (D0 & D1 & D2 & D3) & SZ & SL & HLs' & Szj & TS1 & TS2 & HW & HS0).
  assert (HC : exists w sc g, ssht_analysis_fp fpow O J f L N J_min (fint 2) spin s reality (Some (psi, phi)) = Ok (w, sc) /\
    ssht_synthesis_fp fpow fsum O J w sc L N J_min (fint 2) spin s reality (Some (psi, phi)) = inv64 (ssht_lib O) g L spin s nside reality /\ harmonic L spin (vals2 g) /\
    forall l q, 0 <= l < L -> 0 <= q < 2 * L - 1 -> finite64 (get2 g l q) /\
      (Cmod (cval (get2 g l q) - cval (get2 flm0 l q))%C <= (quad_error 2 300 + bpow radix2 (-32)) * Cmod (cval (get2 flm0 l q))
          + d * B * (3 * sqrt (IZR (N * (J + 1) * (2 * l + 1))) + 21) + bpow radix2 (-1000))%R).
  { apply (rt_core fexp fpow flg fsum (ssht_lib O) J flm0 f L N J_min spin s nside reality true false d B psi phi (fun a j => wj L (fun j => Lj_of L j 2 true) (fun j => Nj_of L j N 2 true) (fun j => L0_of j 2 true) psi a j)
      _ (fun w sc => ssht_synthesis_fp fpow fsum O J w sc L N J_min (fint 2) spin s reality (Some (psi, phi)))); auto.
    - intros. apply wavj_same.
    - intros _ Hf0. apply (can64 fpow L N J_min J (fint 2) (fun j => Lj_of L j 2 true) (fun j => Nj_of L j N 2 true) (fun j => L0_of j 2 true) (Ls_of L J_min 2 true)); auto; lia.
    - intros w sc _ HS HT. apply (csy64 fpow fsum L N J_min J (fint 2) (fun j => Lj_of L j 2 true) (fun j => Nj_of L j N 2 true) (fun j => L0_of j 2 true) (Ls_of L J_min 2 true)); auto; lia. }
  exact HC.
Qed.

(*% ** C76: the wavelet coefficients of given harmonic coefficients *)

(*@ C76_jax_wavelet_coefficients *)
Lemma jfl : forall fexp fpow flg O J flm L N J_min J_max Jt spin s nside reality psi phi sz q p,
  1 <= L <= 2 ^ 52 -> 1 <= N <= L -> N <= 41 -> accurate_loggamma flg -> relative_exp fexp -> accurate_exp fexp -> exact_powers fpow J -> j_max L 2 = Ok J ->
  filters_directional_vectorised_fp fexp fpow flg J L N J_min (fint 2) spin 0 = Ok (psi, phi) ->
  J_min <= Jt <= J -> (J_max = Some Jt \/ J_max = None /\ Jt = J) ->
  generate_wigner_precomputes_fp fpow J L N J_min (fint 2) s nside false reality = Ok q -> (p = None \/ p = Some q) ->
  (forall j, LN_j L j N 2 true = Ok (sz j)) -> rows flm = L -> cols flm = 2 * L - 1 -> numbers2 (bpow radix2 900) flm ->
  exists W,
    jax_flm_to_analysis_fp fpow O J flm L N J_min J_max (fint 2) s nside reality (Some psi) p
    = mapM (fun j => let '(Lj, Nj, L0j) := sz j in winv64 (jax_lib O) (W j) Lj Nj L0j s reality nside) (zrange J_min (Jt + 1)) /\
    forall j, J_min <= j <= Jt -> near3 (bpow radix2 (-49)) (bpow radix2 (-1073)) (W j) (wcoefs L (vals3 psi) (vals2 flm) sz j).
Proof.
  intros fexp fpow flg O J flm L N J_min J_max Jt spin s nside reality psi phi sz q p HL HN HN' Hg Hr Hf HP EJ EF HJt HJm Eq Hp Esz R1 R2 Hn.
  destruct (setup fexp fpow flg J L N J_min spin psi phi HL HN HN' Hg Hr Hf HP EJ EF) as ((HJ & HJ52 & HL2) & (D0 & D1 & D2 & D3) & SZ & SL & HLs' & Szj & TS1 & TS2 & HW & HS0).
  rewrite (sz_eq L N 2 true sz ltac:(lra) Esz).
  exists (wj L (fun j => Lj_of L j 2 true) (fun j => Nj_of L j N 2 true) (fun j => L0_of j 2 true) psi flm). split; [|intros j Hj; apply HW; auto; lia].
  rewrite (jfl64 fpow L N J_min Jt (fint 2) (fun j => Lj_of L j 2 true) (fun j => Nj_of L j N 2 true) (fun j => L0_of j 2 true)) with (nside := nside) (q := q); auto; try lia.
  - intros j Hj. apply SZ. lia.
  - intros j Hj. apply Szj. lia.
  - destruct HJm as [-> |[-> ->]]; reflexivity.
  - destruct Hp as [-> | ->]; auto.
  - intros j Hj. rewrite (gen_wigner64 fpow L N J_min J (fint 2) (fun j => Lj_of L j 2 true) (fun j => Nj_of L j N 2 true) (fun j => L0_of j 2 true)) in Eq by (auto; lia). apply Ok_inj in Eq. subst q. apply lrd_map. lia.
Qed.

(*@ C76_precompute_wavelet_coefficients *)
Lemma pfl : forall fexp fpow flg O J flm L N J_min J_max Jt spin s nside reality psi phi sz q nosph,
  1 <= L <= 2 ^ 52 -> 1 <= N <= L -> N <= 41 -> accurate_loggamma flg -> relative_exp fexp -> accurate_exp fexp -> exact_powers fpow J -> j_max L 2 = Ok J ->
  filters_directional_vectorised_fp fexp fpow flg J L N J_min (fint 2) spin 0 = Ok (psi, phi) ->
  (J_max = Some J \/ J_max = None) -> Jt = J ->
  generate_full_precomputes_fp fpow J L N J_min (fint 2) s nside false reality nosph = Ok q ->
  (forall j, LN_j L j N 2 true = Ok (sz j)) -> rows flm = L -> cols flm = 2 * L - 1 -> numbers2 (bpow radix2 900) flm ->
  exists W,
    pre_flm_to_analysis_fp fpow O J flm L N J_min J_max (fint 2) s nside reality (Some psi) (Some q)
    = mapM (fun j => let '(Lj, Nj, L0j) := sz j in winv64 (pre_lib O) (W j) Lj Nj L0j s reality nside) (zrange J_min (Jt + 1)) /\
    forall j, J_min <= j <= Jt -> near3 (bpow radix2 (-49)) (bpow radix2 (-1073)) (W j) (wcoefs L (vals3 psi) (vals2 flm) sz j).
Proof.
  intros fexp fpow flg O J flm L N J_min J_max Jt spin s nside reality psi phi sz q nosph HL HN HN' Hg Hr Hf HP EJ EF HJm HJt Eq Esz R1 R2 Hn.
  destruct (setup fexp fpow flg J L N J_min spin psi phi HL HN HN' Hg Hr Hf HP EJ EF) as ((HJ & HJ52 & HL2) & (D0 & D1 & D2 & D3) & SZ & SL & HLs' & Szj & TS1 & TS2 & HW & HS0).
  rewrite (sz_eq L N 2 true sz ltac:(lra) Esz).
  subst Jt.
  rewrite (gen_full64 fpow L N J_min J (fint 2) (fun j => Lj_of L j 2 true) (fun j => Nj_of L j N 2 true) (fun j => L0_of j 2 true) (Ls_of L J_min 2 true)) in Eq by (auto; lia). apply Ok_inj in Eq. subst q. cbn [negb].
  exists (wj L (fun j => Lj_of L j 2 true) (fun j => Nj_of L j N 2 true) (fun j => L0_of j 2 true) psi flm). split; [|intros j Hj; apply HW; auto; lia].
  rewrite (pfl64 fpow L N J_min J (fint 2) (fun j => Lj_of L j 2 true) (fun j => Nj_of L j N 2 true) (fun j => L0_of j 2 true)) with (nside := nside); auto; try lia.
  - destruct HJm as [-> | ->]; reflexivity.
  - intros j Hj. apply (wk_at J_min J (fun j => Lj_of L j 2 true) (fun j => Nj_of L j N 2 true)); auto; lia.
Qed.

(*@ C76_torch_wavelet_coefficients *)
Lemma tfl : forall fexp fpow flg O J flm L N J_min J_max Jt spin s nside reality psi phi sz q nosph,
  1 <= L <= 2 ^ 52 -> 1 <= N <= L -> N <= 41 -> accurate_loggamma flg -> relative_exp fexp -> accurate_exp fexp -> exact_powers fpow J -> j_max L 2 = Ok J ->
  filters_directional_vectorised_fp fexp fpow flg J L N J_min (fint 2) spin 0 = Ok (psi, phi) ->
  (J_max = Some J \/ J_max = None) -> Jt = J ->
  generate_full_precomputes_fp fpow J L N J_min (fint 2) s nside false reality nosph = Ok q ->
  (forall j, LN_j L j N 2 true = Ok (sz j)) -> rows flm = L -> cols flm = 2 * L - 1 -> numbers2 (bpow radix2 900) flm ->
  exists W,
    torch_flm_to_analysis_fp fpow O J flm L N J_min J_max (fint 2) s nside reality (Some psi) (Some q)
    = (w <- mapM (fun j => let '(Lj, Nj, L0j) := sz j in winv64 (torch_lib O) (W j) Lj Nj L0j s reality nside) (zrange J_min (Jt + 1)) ;; Ok (map Some w)) /\
    forall j, J_min <= j <= Jt -> near3 (bpow radix2 (-49)) (bpow radix2 (-1073)) (W j) (wcoefs L (vals3 psi) (vals2 flm) sz j).
Proof.
  intros fexp fpow flg O J flm L N J_min J_max Jt spin s nside reality psi phi sz q nosph HL HN HN' Hg Hr Hf HP EJ EF HJm HJt Eq Esz R1 R2 Hn.
  destruct (setup fexp fpow flg J L N J_min spin psi phi HL HN HN' Hg Hr Hf HP EJ EF) as ((HJ & HJ52 & HL2) & (D0 & D1 & D2 & D3) & SZ & SL & HLs' & Szj & TS1 & TS2 & HW & HS0).
  rewrite (sz_eq L N 2 true sz ltac:(lra) Esz).
  subst Jt.
  rewrite (gen_full64 fpow L N J_min J (fint 2) (fun j => Lj_of L j 2 true) (fun j => Nj_of L j N 2 true) (fun j => L0_of j 2 true) (Ls_of L J_min 2 true)) in Eq by (auto; lia). apply Ok_inj in Eq. subst q. cbn [negb].
  exists (wj L (fun j => Lj_of L j 2 true) (fun j => Nj_of L j N 2 true) (fun j => L0_of j 2 true) psi flm). split; [|intros j Hj; apply HW; auto; lia].
  rewrite (tfl64 fpow L N J_min J (fint 2) (fun j => Lj_of L j 2 true) (fun j => Nj_of L j N 2 true) (fun j => L0_of j 2 true)) with (nside := nside); auto; try lia.
  - destruct HJm as [-> | ->]; reflexivity.
  - intros j Hj. apply (wk_at J_min J (fun j => Lj_of L j 2 true) (fun j => Nj_of L j N 2 true)); auto; lia.
Qed.

(*@ C76_ssht_wavelet_coefficients *)
Lemma cfl : forall fexp fpow flg O J flm L N J_min J_max Jt spin s nside reality psi phi sz,
  1 <= L <= 2 ^ 52 -> 1 <= N <= L -> N <= 41 -> accurate_loggamma flg -> relative_exp fexp -> accurate_exp fexp -> exact_powers fpow J -> j_max L 2 = Ok J ->
  filters_directional_vectorised_fp fexp fpow flg J L N J_min (fint 2) spin 0 = Ok (psi, phi) ->
  J_min <= Jt <= J -> (J_max = Some Jt \/ J_max = None /\ Jt = J) ->
  (forall j, LN_j L j N 2 true = Ok (sz j)) -> rows flm = L -> cols flm = 2 * L - 1 -> numbers2 (bpow radix2 900) flm ->
  exists W,
    ssht_flm_to_analysis_fp fpow O J flm L N J_min J_max (fint 2) s reality (Some psi)
    = mapM (fun j => let '(Lj, Nj, L0j) := sz j in winv64 (ssht_lib O) (W j) Lj Nj L0j s reality nside) (zrange J_min (Jt + 1)) /\
    forall j, J_min <= j <= Jt -> near3 (bpow radix2 (-49)) (bpow radix2 (-1073)) (W j) (wcoefs L (vals3 psi) (vals2 flm) sz j).
Proof.
  intros fexp fpow flg O J flm L N J_min J_max Jt spin s nside reality psi phi sz HL HN HN' Hg Hr Hf HP EJ EF HJt HJm Esz R1 R2 Hn.
  destruct (setup fexp fpow flg J L N J_min spin psi phi HL HN HN' Hg Hr Hf HP EJ EF) as ((HJ & HJ52 & HL2) & (D0 & D1 & D2 & D3) & SZ & SL & HLs' & Szj & TS1 & TS2 & HW & HS0).
  rewrite (sz_eq L N 2 true sz ltac:(lra) Esz).
  exists (wj L (fun j => Lj_of L j 2 true) (fun j => Nj_of L j N 2 true) (fun j => L0_of j 2 true) psi flm). split; [|intros j Hj; apply HW; auto; lia].
  rewrite (cfl64 fpow L N J_min Jt (fint 2) (fun j => Lj_of L j 2 true) (fun j => Nj_of L j N 2 true) (fun j => L0_of j 2 true)) with (nside := nside); auto; try lia.
  - intros j Hj. apply SZ. lia.
  - intros j Hj. apply Szj. lia.
  - destruct HJm as [-> |[-> ->]]; reflexivity.
Qed.

(*% ** C77: the JAX, precompute, torch and SSHT transforms compute the same coefficients *)

(*@ C77_same_analysis_coefficients *)
Lemma same_an : forall fexp fpow flg O Oj J f flm L N J_min spin s nside reality psi phi sz Ls q p q',
  1 <= L <= 2 ^ 52 -> 1 <= N <= L -> N <= 41 -> accurate_loggamma flg -> relative_exp fexp -> accurate_exp fexp -> exact_powers fpow J -> j_max L 2 = Ok J ->
  filters_directional_vectorised_fp fexp fpow flg J L N J_min (fint 2) spin 0 = Ok (psi, phi) ->
  ssht_scheme s -> (reality = true -> nd_real64 f = f) ->
  generate_wigner_precomputes_fp fpow J L N J_min (fint 2) s nside false reality = Ok q -> (p = None \/ p = Some q) ->
  generate_full_precomputes_fp fpow J L N J_min (fint 2) s nside false reality false = Ok q' ->
  (forall j, LN_j L j N 2 true = Ok (sz j)) -> scal_bandlimit L J_min 2 true = Ok Ls ->
  rows flm = L -> cols flm = 2 * L - 1 ->
  fwd64 (jax_lib Oj) f L spin s nside reality = Ok flm -> fwd64 (pre_lib Oj) f L spin s nside reality = Ok flm ->
  fwd64 (torch_lib O) f L spin s nside reality = Ok flm -> fwd64 (ssht_lib O) f L spin s nside reality = Ok flm ->
  exists W S,
    jax_analysis_fp fpow Oj J f L N J_min (fint 2) spin s nside reality (Some (psi, phi)) p
    = (w <- mapM (fun j => let '(Lj, Nj, L0j) := sz j in winv64 (jax_lib Oj) (W j) Lj Nj L0j s reality nside) (zrange J_min (J + 1)) ;;
       sc <- inv64 (jax_lib Oj) S Ls spin s nside reality ;;
       Ok (w, sc)) /\
    pre_analysis_fp fpow Oj J f L N J_min (fint 2) spin s nside reality (Some (psi, phi)) (Some q')
    = (w <- mapM (fun j => let '(Lj, Nj, L0j) := sz j in winv64 (pre_lib Oj) (W j) Lj Nj L0j s reality nside) (zrange J_min (J + 1)) ;;
       sc <- inv64 (pre_lib Oj) S Ls spin s nside reality ;;
       Ok (w, sc)) /\
    torch_analysis_fp fpow O J f L N J_min (fint 2) spin s nside reality (Some (psi, phi)) (Some q')
    = (w <- mapM (fun j => let '(Lj, Nj, L0j) := sz j in winv64 (torch_lib O) (W j) Lj Nj L0j s reality nside) (zrange J_min (J + 1)) ;;
       sc <- inv64 (torch_lib O) S Ls spin s nside reality ;;
       Ok (map Some w, sc)) /\
    ssht_analysis_fp fpow O J f L N J_min (fint 2) spin s reality (Some (psi, phi))
    = (w <- mapM (fun j => let '(Lj, Nj, L0j) := sz j in winv64 (ssht_lib O) (W j) Lj Nj L0j s reality nside) (zrange J_min (J + 1)) ;;
       sc <- inv64 (ssht_lib O) S Ls spin s nside reality ;;
       Ok (w, sc)) /\
    jax_flm_to_analysis_fp fpow Oj J flm L N J_min None (fint 2) s nside reality (Some psi) p
    = mapM (fun j => let '(Lj, Nj, L0j) := sz j in winv64 (jax_lib Oj) (W j) Lj Nj L0j s reality nside) (zrange J_min (J + 1)) /\
    pre_flm_to_analysis_fp fpow Oj J flm L N J_min None (fint 2) s nside reality (Some psi) (Some q')
    = mapM (fun j => let '(Lj, Nj, L0j) := sz j in winv64 (pre_lib Oj) (W j) Lj Nj L0j s reality nside) (zrange J_min (J + 1)) /\
    torch_flm_to_analysis_fp fpow O J flm L N J_min None (fint 2) s nside reality (Some psi) (Some q')
    = (w <- mapM (fun j => let '(Lj, Nj, L0j) := sz j in winv64 (torch_lib O) (W j) Lj Nj L0j s reality nside) (zrange J_min (J + 1)) ;; Ok (map Some w)) /\
    ssht_flm_to_analysis_fp fpow O J flm L N J_min None (fint 2) s reality (Some psi)
    = mapM (fun j => let '(Lj, Nj, L0j) := sz j in winv64 (ssht_lib O) (W j) Lj Nj L0j s reality nside) (zrange J_min (J + 1)).
Proof.
  intros fexp fpow flg O Oj J f flm L N J_min spin s nside reality psi phi sz Ls q p q' HL HN HN' Hg Hr Hf HP EJ EF Hs Hre Eq Hp Eq' Esz ELs R1 R2 Efj Efp Eft Efc.
  destruct (setup fexp fpow flg J L N J_min spin psi phi HL HN HN' Hg Hr Hf HP EJ EF) as ((HJ & HJ52 & HL2) & (D0 & D1 & D2 & D3) & SZ & SL & HLs' & Szj & TS1 & TS2 & _ & _).
  rewrite (sz_eq L N 2 true sz ltac:(lra) Esz), (Ls_eq L J_min 2 true Ls ltac:(lra) ELs).
  pose proof Eq as Eq0.
  rewrite (gen_wigner64 fpow L N J_min J (fint 2) (fun j => Lj_of L j 2 true) (fun j => Nj_of L j N 2 true) (fun j => L0_of j 2 true)) in Eq by (auto; lia). apply Ok_inj in Eq.
  rewrite (gen_full64 fpow L N J_min J (fint 2) (fun j => Lj_of L j 2 true) (fun j => Nj_of L j N 2 true) (fun j => L0_of j 2 true) (Ls_of L J_min 2 true)) in Eq' by (auto; lia). apply Ok_inj in Eq'. subst q'. cbn [negb].
  assert (Hq : forall j, J_min <= j <= J -> lrd q (j - J_min) = Ok (rk (fun j => Lj_of L j 2 true) (fun j => Nj_of L j N 2 true) (fun j => L0_of j 2 true) s nside false reality j))
    by (intros j Hj; subst q; apply lrd_map; lia).
  assert (Hq2 : forall j, J_min <= j <= J -> lrd (map (wk (fun j => Lj_of L j 2 true) (fun j => Nj_of L j N 2 true) s nside false reality) (zrange J_min J)) (j - J_min + (if j <? J then 0 else -1))
      = Ok (wk (fun j => Lj_of L j 2 true) (fun j => Nj_of L j N 2 true) s nside false reality j)).
  { intros j Hj. apply (wk_at J_min J (fun j => Lj_of L j 2 true) (fun j => Nj_of L j N 2 true)); auto; lia. }
  exists (wj L (fun j => Lj_of L j 2 true) (fun j => Nj_of L j N 2 true) (fun j => L0_of j 2 true) psi flm), (sca64 L phi flm (Ls_of L J_min 2 true)).
  split; [|split; [|split; [|split; [|split; [|split; [|split]]]]]].
  - rewrite (jan64 fpow L N J_min J (fint 2) (fun j => Lj_of L j 2 true) (fun j => Nj_of L j N 2 true) (fun j => L0_of j 2 true) (Ls_of L J_min 2 true)); auto; try lia.
    + rewrite Efj. reflexivity.
    + subst q. auto.
    + intros a E. cbn [jax_lib fwd64] in Efj. assert (a = flm) as -> by congruence. auto.
  - rewrite (pan64 fpow L N J_min J (fint 2) (fun j => Lj_of L j 2 true) (fun j => Nj_of L j N 2 true) (fun j => L0_of j 2 true) (Ls_of L J_min 2 true)); auto; try lia.
    + rewrite Efp. reflexivity.
    + intros a E. assert (a = flm) as -> by congruence. auto.
  - rewrite (tan64 fpow L N J_min J (fint 2) (fun j => Lj_of L j 2 true) (fun j => Nj_of L j N 2 true) (fun j => L0_of j 2 true) (Ls_of L J_min 2 true)) with (nside := nside); auto; try lia.
    + rewrite Eft. reflexivity.
    + intros a E. assert (a = flm) as -> by congruence. auto.
  - rewrite (can64 fpow L N J_min J (fint 2) (fun j => Lj_of L j 2 true) (fun j => Nj_of L j N 2 true) (fun j => L0_of j 2 true) (Ls_of L J_min 2 true)) with (nside := nside); auto; try lia.
    + rewrite Efc. reflexivity.
    + intros a E. assert (a = flm) as -> by congruence. auto.
  - rewrite (jfl64 fpow L N J_min J (fint 2) (fun j => Lj_of L j 2 true) (fun j => Nj_of L j N 2 true) (fun j => L0_of j 2 true)) with (nside := nside) (q := q); auto; try lia.
    destruct Hp as [->| ->]; auto.
  - rewrite (pfl64 fpow L N J_min J (fint 2) (fun j => Lj_of L j 2 true) (fun j => Nj_of L j N 2 true) (fun j => L0_of j 2 true)) with (nside := nside); auto; lia.
  - rewrite (tfl64 fpow L N J_min J (fint 2) (fun j => Lj_of L j 2 true) (fun j => Nj_of L j N 2 true) (fun j => L0_of j 2 true)) with (nside := nside); auto; lia.
  - rewrite (cfl64 fpow L N J_min J (fint 2) (fun j => Lj_of L j 2 true) (fun j => Nj_of L j N 2 true) (fun j => L0_of j 2 true)) with (nside := nside); auto; lia.
Qed.

(*@ C77_same_synthesis_coefficients *)
Lemma same_sy : forall fexp fpow flg fsum O Oj J f_wav f_scal T S L N J_min spin s nside reality psi phi sz Ls q p q',
  1 <= L <= 2 ^ 52 -> 1 <= N <= L -> N <= 41 -> accurate_loggamma flg -> relative_exp fexp -> accurate_exp fexp -> exact_powers fpow J -> j_max L 2 = Ok J ->
  filters_directional_vectorised_fp fexp fpow flg J L N J_min (fint 2) spin 0 = Ok (psi, phi) -> ssht_scheme s ->
  generate_wigner_precomputes_fp fpow J L N J_min (fint 2) s nside true reality = Ok q -> (p = None \/ p = Some q) ->
  generate_full_precomputes_fp fpow J L N J_min (fint 2) s nside true reality false = Ok q' ->
  (forall j, LN_j L j N 2 true = Ok (sz j)) -> scal_bandlimit L J_min 2 true = Ok Ls ->
  rows S = Ls -> cols S = 2 * Ls - 1 ->
  fwd64 (jax_lib Oj) f_scal Ls spin s nside reality = Ok S -> fwd64 (pre_lib Oj) f_scal Ls spin s nside reality = Ok S ->
  fwd64 (torch_lib O) f_scal Ls spin s nside reality = Ok S -> fwd64 (ssht_lib O) f_scal Ls spin s nside reality = Ok S ->
  (forall j, J_min <= j <= J -> let '(Lj, Nj, L0j) := sz j in
     dim0 (T j) = 2 * Nj - 1 /\ dim1 (T j) = Lj /\ dim2 (T j) = 2 * Lj - 1 /\
     exists fj, lrd f_wav (j - J_min) = Ok fj /\
       wfwd64 (jax_lib Oj) fj Lj Nj L0j s reality nside = Ok (T j) /\ wfwd64 (pre_lib Oj) fj Lj Nj L0j s reality nside = Ok (T j) /\
       wfwd64 (torch_lib O) fj Lj Nj L0j s reality nside = Ok (T j) /\ wfwd64 (ssht_lib O) fj Lj Nj L0j s reality nside = Ok (T j)) ->
  exists g,
    jax_synthesis_fp fpow fsum Oj J f_wav f_scal L N J_min (fint 2) spin s nside reality (Some (psi, phi)) p = inv64 (jax_lib Oj) g L spin s nside reality /\
    pre_synthesis_fp fpow fsum Oj J f_wav f_scal L N J_min (fint 2) spin s nside reality (Some (psi, phi)) (Some q') = inv64 (pre_lib Oj) g L spin s nside reality /\
    torch_synthesis_fp fpow fsum O J f_wav f_scal L N J_min (fint 2) spin s nside reality (Some (psi, phi)) (Some q') = inv64 (torch_lib O) g L spin s nside reality /\
    ssht_synthesis_fp fpow fsum O J f_wav f_scal L N J_min (fint 2) spin s reality (Some (psi, phi)) = inv64 (ssht_lib O) g L spin s nside reality.
Proof.
  intros fexp fpow flg fsum O Oj J f_wav f_scal T S L N J_min spin s nside reality psi phi sz Ls q p q' HL HN HN' Hg Hr Hf HP EJ EF Hs Eq Hp Eq' Esz ELs R1 R2 ESj ESp ESt ESc HT.
  destruct (setup fexp fpow flg J L N J_min spin psi phi HL HN HN' Hg Hr Hf HP EJ EF) as ((HJ & HJ52 & HL2) & (D0 & D1 & D2 & D3) & SZ & SL & HLs' & Szj & TS1 & TS2 & _ & _).
  rewrite (sz_eq L N 2 true sz ltac:(lra) Esz) in *. rewrite (Ls_eq L J_min 2 true Ls ltac:(lra) ELs) in *. clear Esz ELs sz Ls.
  rewrite (gen_wigner64 fpow L N J_min J (fint 2) (fun j => Lj_of L j 2 true) (fun j => Nj_of L j N 2 true) (fun j => L0_of j 2 true)) in Eq by (auto; lia). apply Ok_inj in Eq. subst q.
  rewrite (gen_full64 fpow L N J_min J (fint 2) (fun j => Lj_of L j 2 true) (fun j => Nj_of L j N 2 true) (fun j => L0_of j 2 true) (Ls_of L J_min 2 true)) in Eq' by (auto; lia). apply Ok_inj in Eq'. subst q'. cbn [negb].
  unfold szf in HT.
  assert (CL : forall lib sy, fwd64 lib f_scal (Ls_of L J_min 2 true) spin s nside reality = Ok S ->
    (forall j, J_min <= j <= J -> exists fj, lrd f_wav (j - J_min) = Ok fj /\ wfwd64 lib fj (Lj_of L j 2 true) (Nj_of L j N 2 true) (L0_of j 2 true) s reality nside = Ok (T j)) ->
    sy = (S <- fwd64 lib f_scal (Ls_of L J_min 2 true) spin s nside reality ;;
         Ts <- mapM (fun j => fj <- lrd f_wav (j - J_min) ;; wfwd64 lib fj (Lj_of L j 2 true) (Nj_of L j N 2 true) (L0_of j 2 true) s reality nside) (zrange J_min (J + 1)) ;;
         inv64 lib (syn64 fsum L J_min J (fun j => Lj_of L j 2 true) (fun j => Nj_of L j N 2 true) (fun j => L0_of j 2 true) (Ls_of L J_min 2 true) psi phi Ts S) L spin s nside reality) ->
    sy = inv64 lib (syn64 fsum L J_min J (fun j => Lj_of L j 2 true) (fun j => Nj_of L j N 2 true) (fun j => L0_of j 2 true) (Ls_of L J_min 2 true) psi phi (map T (zrange J_min (J + 1))) S) L spin s nside reality).
  { intros lib sy E1 E2 ->. rewrite E1. cbn [bind]. rewrite (mapM_ok _ T); [reflexivity|]. intros j Hj. apply In_zrange in Hj. destruct (E2 j ltac:(lia)) as (fj & F1 & F2). rewrite F1. cbn [bind]. exact F2. }
  assert (D : forall lib, (forall j, J_min <= j <= J -> exists fj, lrd f_wav (j - J_min) = Ok fj /\ wfwd64 lib fj (Lj_of L j 2 true) (Nj_of L j N 2 true) (L0_of j 2 true) s reality nside = Ok (T j)) ->
    forall j fj T', J_min <= j <= J -> lrd f_wav (j - J_min) = Ok fj -> wfwd64 lib fj (Lj_of L j 2 true) (Nj_of L j N 2 true) (L0_of j 2 true) s reality nside = Ok T' ->
      dim0 T' = 2 * Nj_of L j N 2 true - 1 /\ dim1 T' = Lj_of L j 2 true /\ dim2 T' = 2 * Lj_of L j 2 true - 1).
  { intros lib E j fj T' Hj E1 E2. destruct (E j Hj) as (fj' & F1 & F2). assert (fj' = fj) as -> by congruence. assert (T' = T j) as -> by congruence. destruct (HT j Hj) as (A1 & A2 & A3 & _). auto. }
  assert (Dj : forall j, J_min <= j <= J -> exists fj, lrd f_wav (j - J_min) = Ok fj /\ wfwd64 (jax_lib Oj) fj (Lj_of L j 2 true) (Nj_of L j N 2 true) (L0_of j 2 true) s reality nside = Ok (T j))
    by (intros j Hj; destruct (HT j Hj) as (_ & _ & _ & fj & F1 & F2 & F3 & F4 & F5); eauto).
  assert (Dp : forall j, J_min <= j <= J -> exists fj, lrd f_wav (j - J_min) = Ok fj /\ wfwd64 (pre_lib Oj) fj (Lj_of L j 2 true) (Nj_of L j N 2 true) (L0_of j 2 true) s reality nside = Ok (T j))
    by (intros j Hj; destruct (HT j Hj) as (_ & _ & _ & fj & F1 & F2 & F3 & F4 & F5); eauto).
  assert (Dt : forall j, J_min <= j <= J -> exists fj, lrd f_wav (j - J_min) = Ok fj /\ wfwd64 (torch_lib O) fj (Lj_of L j 2 true) (Nj_of L j N 2 true) (L0_of j 2 true) s reality nside = Ok (T j))
    by (intros j Hj; destruct (HT j Hj) as (_ & _ & _ & fj & F1 & F2 & F3 & F4 & F5); eauto).
  assert (Dc : forall j, J_min <= j <= J -> exists fj, lrd f_wav (j - J_min) = Ok fj /\ wfwd64 (ssht_lib O) fj (Lj_of L j 2 true) (Nj_of L j N 2 true) (L0_of j 2 true) s reality nside = Ok (T j))
    by (intros j Hj; destruct (HT j Hj) as (_ & _ & _ & fj & F1 & F2 & F3 & F4 & F5); eauto).
  eexists. split; [|split; [|split]].
  - apply (CL (jax_lib Oj)); auto.
    apply (jsy64 fpow fsum L N J_min J (fint 2) (fun j => Lj_of L j 2 true) (fun j => Nj_of L j N 2 true) (fun j => L0_of j 2 true) (Ls_of L J_min 2 true)); auto; try lia.
    + intros a E. assert (a = S) as -> by congruence. auto.
    + apply (D _ Dj).
  - apply (CL (pre_lib Oj)); auto.
    apply (psy64 fpow fsum L N J_min J (fint 2) (fun j => Lj_of L j 2 true) (fun j => Nj_of L j N 2 true) (fun j => L0_of j 2 true) (Ls_of L J_min 2 true)); auto; try lia.
    + intros a E. assert (a = S) as -> by congruence. auto.
    + apply (D _ Dp).
  - apply (CL (torch_lib O)); auto. rewrite torch_sy_as.
    apply (psy64 fpow fsum L N J_min J (fint 2) (fun j => Lj_of L j 2 true) (fun j => Nj_of L j N 2 true) (fun j => L0_of j 2 true) (Ls_of L J_min 2 true)); auto; try lia.
    + intros a E. rewrite <- torch_as in E. assert (a = S) as -> by congruence. auto.
    + apply (D _ Dt).
  - apply (CL (ssht_lib O)); auto.
    apply (csy64 fpow fsum L N J_min J (fint 2) (fun j => Lj_of L j 2 true) (fun j => Nj_of L j N 2 true) (fun j => L0_of j 2 true) (Ls_of L J_min 2 true)); auto; try lia.
    + intros a E. assert (a = S) as -> by congruence. auto.
    + apply (D _ Dc).
Qed.

(** libraries for the examples *)
Definition back_of (O : jax64) : back64 := Back64 (pf64 O) (pi64 O) (pwf64 O) (pwi64 O)
  (fun f L spin r _ => jf64 O f L spin None MW r) (fun a L spin r _ => ji64 O a L spin None MW r)
  (fun f L N L0 s r => jwf64 O f L N None s r (RKern L N s None true r L0) L0)
  (fun a L N L0 s r => jwi64 O a L N None s r (RKern L N s None false r L0) L0).
(** pixels that are real: the two parts of the coefficients one after the other *)
Definition rfwd (f : nd64) (L : Z) : arr2 c64 :=
  if L =? 1 then mk2 1 1 (fun l q => cmul (ndat64 f [l; q]) (creal (fdiv (fint 1) cpix)))
  else mk2 L (2 * L - 1) (fun l q => (fst (ndat64 f [l; q; 0]), fst (ndat64 f [l; q; 1]))).
Definition rinv (a : arr2 c64) (L : Z) : nd64 :=
  Nd64 [L; 2 * L - 1; 2] (fun ix => match ix with [l; q; k] => creal (if k =? 0 then fst (get2 a l q) else snd (get2 a l q)) | _ => creal (fint 0) end).
Definition rstore : back64 := Back64 (fun _ _ _ _ _ _ _ => Err TypeError) (fun _ _ _ _ _ _ _ => Err TypeError)
  (fun _ _ _ _ _ _ _ => Err TypeError) (fun _ _ _ _ _ _ _ => Err TypeError)
  (fun f L _ _ _ => Ok (rfwd f L)) (fun a L _ _ _ => Ok (rinv a L))
  (fun f L N L0 s r => wfwd64 store f L N L0 MW r None) (fun a L N L0 s r => winv64 store a L N L0 MW r None).
Lemma nd_real_rinv a L : nd_real64 (rinv a L) = rinv a L.
Proof.
  unfold nd_real64, rinv. cbn [nshape64 ndat64]. f_equal. apply functional_extensionality. intros [|l [|q [|k [|]]]]; reflexivity.
Qed.
Lemma im_zero x : finite64 x -> B2R (snd x) = 0%R -> let y := cmul x (creal cpix) in is_finite (fst y) = true -> finite64 (creal (fst y)) /\ cval (creal (fst y)) = cval y.
Proof.
  intros [F1 F2] E y Fy. destruct cpix_val as [G1 _]. split; [apply fin_creal; exact Fy|].
  assert (S0 : exists s, snd x = B754_zero s).
  { clear - F2 E. destruct (snd x) as [s|s| |s m e H]; try discriminate F2; [eauto|]. exfalso. cbn [B2R] in E. apply eq_0_F2R in E. destruct s; discriminate E. }
  destruct S0 as [s0 S0]. destruct (fmul_0r (fst x) F1) as [A1 A2].
  assert (Z1 : is_finite (fmul (snd x) cpix) = true /\ B2R (fmul (snd x) cpix) = 0%R).
  { rewrite S0. destruct cpix; try discriminate; split; reflexivity. }
  unfold y, cmul, cval, creal. cbn [fst snd]. f_equal. destruct (fadd_z _ _ A1 (proj1 Z1) (proj2 Z1)) as [_ ->]. rewrite A2. reflexivity.
Qed.
Lemma rstore_accurate L : accurate64 false (bpow radix2 (-50)) (ssht_lib rstore) L 0 MW None true.
Proof.
  split.
  - intros M HM a B HB Ha Hn. pose proof Ha as ((R1 & R2 & R3) & Hr). cbn [vals2 rows cols mk2] in R1, R2. specialize (Hr eq_refl).
    cbn [ssht_lib rstore inv64 fwd64 cf64 ci64]. unfold rfwd. destruct (Z.eqb_spec M 1) as [->|Hne].
    + eexists. eexists. split; [reflexivity|]. split; [discriminate|]. split; [reflexivity|].
      assert (R2' : cols a = 1) by lia. destruct (Hn 0 0 ltac:(lia) ltac:(lia)) as [F E].
      assert (I0 : B2R (snd (get2 a 0 0)) = 0%R).
      { pose proof (Hr 0 0) as X. change (1 - 1 - 0) with 0 in X. change (1 - 1 + 0) with 0 in X. rewrite get2_vals in X by lia. apply (f_equal snd) in X. unfold cval, Cconj, Cmult, RtoC, sign_of in X. cbn [fst snd powerRZ] in X. lra. }
      assert (YF : finite64 (cmul (get2 a 0 0) (creal cpix))).
      { destruct cpix_val as [F1 V1]. assert (M1 : Cmod (cval (creal cpix)) = (5081767996463981 / 18014398509481984)%R) by (rewrite cval_creal, Cmod_R, V1, Rabs_pos_eq; lra).
        destruct (cmul_val (get2 a 0 0) (creal cpix) F (fin_creal _ F1)) as (Fy & _); [|exact Fy]. rewrite M1.
        assert (B800 : (bpow radix2 800 * 1024 <= bpow radix2 1000)%R) by (change 1024%R with (bpow radix2 10); rewrite <- bpow_plus; apply bpow_le; lia).
        pose proof (Cmod_ge_0 (cval (get2 a 0 0))). lra. }
      destruct (im_zero (get2 a 0 0) F I0 (proj1 YF)) as [Y1 Y2].
      destruct (pixel_err' (get2 a 0 0) (creal (fst (cmul (get2 a 0 0) (creal cpix)))) B F E HB Y1 Y2) as [Z1 Z2].
      assert (GB : ndat64 (nd_real64 (one_pixel64 a)) [0; 0] = creal (fst (cmul (get2 a 0 0) (creal cpix)))).
      { unfold nd_real64, one_pixel64, nd64_of2, map2. cbn [ndat64]. rewrite get2_mk by lia. reflexivity. }
      split.
      * split; [split; [reflexivity|split; [reflexivity|]]|].
        -- intros l m Hne. unfold vals2 in Hne. cbn [get2 mk2 rows cols] in Hne. destruct (inb 1 l && inb 1 (1 - 1 + m)) eqn:E1; [|exfalso; apply Hne; reflexivity].
           apply andb_prop in E1 as [I1 I2]. apply inb_true in I1, I2. lia.
        -- intros _ l m. unfold vals2. cbn [rows cols mk2]. cbn [get2 mk2]. 
           destruct (Z.eq_dec m 0) as [->|Hm].
           ++ change (1 - 1 - 0) with 0. change (1 - 1 + 0) with 0. destruct (inb 1 l && inb 1 0) eqn:E1.
              ** apply andb_prop in E1 as [I1 _]. apply inb_true in I1. assert (l = 0) as -> by lia. rewrite GB.
                 destruct YF as [YF _]. clear - YF. set (x0 := fst (cmul (get2 a 0 0) (creal cpix))) in *. clearbody x0.
                 unfold cval, cmul, creal, Cconj, Cmult, RtoC, sign_of. cbn [fst snd powerRZ].
                 destruct (fmul_0r x0 YF) as [A1 A2].
                 destruct (fmul_0l (fdiv (fint 1) cpix) (proj1 cpix_inv)) as [B1 B2].
                 destruct (fadd_z _ _ A1 B1 B2) as [_ C2].
                 f_equal; [|rewrite C2, A2]; ring.
              ** rewrite ?E1. unfold Cconj, Cmult, RtoC. cbn [fst snd zero Zeroed_C]. apply injective_projections; cbn; ring.
           ++ assert (inb 1 (1 - 1 - m) = false) as E1 by (unfold inb; zb; lia). assert (inb 1 (1 - 1 + m) = false) as E2 by (unfold inb; zb; lia).
              rewrite E1, E2, !andb_false_r. apply injective_projections; cbn; ring.
      * unfold near2. cbn [vals2 rows cols mk2]. rewrite R1, R2'. split; [reflexivity|]. split; [reflexivity|]. intros i j Hi Hj. assert (i = 0) as -> by lia. assert (j = 0) as -> by lia.
        rewrite get2_mk by lia. rewrite get2_vals by lia. rewrite GB. split; [exact Z1|lra].
    + exists (rinv a M). exists (mk2 M (2 * M - 1) (fun l q => get2 a l q)). split; [reflexivity|]. split; [discriminate|].
      rewrite nd_real_rinv. split.
      { f_equal. apply mk2_ext. intros l q Hl Hq. unfold rinv. cbn [ndat64]. cbn. symmetry. apply surjective_pairing. }
      assert (EV : vals2 (mk2 M (2 * M - 1) (fun l q => get2 a l q)) = vals2 a).
      { unfold vals2, mk2. cbn [rows cols get2]. rewrite R1, R2. f_equal. apply functional_extensionality. intros l. apply functional_extensionality. intros q.
        destruct (inb M l && inb (2 * M - 1) q) eqn:E; reflexivity. }
      split; [rewrite EV; exact Ha|]. split; [symmetry; exact R1|]. split; [symmetry; exact R2|]. cbn [vals2 rows cols mk2]. intros i j Hi Hj. rewrite get2_mk by lia. split; [apply Hn; lia|].
      rewrite get2_vals by lia. replace (cval (get2 a i j) - cval (get2 a i j))%C with (RtoC 0) by ring. rewrite Cmod_0.
      assert (0 <= bpow radix2 (-50) * B)%R by (apply Rmult_le_pos; [apply bpow_ge_0|]; pose proof (bpow_ge_0 radix2 (-900)); lra). lra.
  - intros M N L0 HM HN HL0 a B HB ((R0 & R1 & R2 & R3) & Hr) Hn. cbn [vals3 dim0 dim1 dim2 mk3] in R0, R1, R2.
    exists (Nd64 [2 * N - 1; M; 2 * M - 1] (fun ix => match ix with [n; l; q] => get3 a n l q | _ => creal (fint 0) end)), (mk3 (2 * N - 1) M (2 * M - 1) (fun n l q => get3 a n l q)).
    assert (EV : vals3 (mk3 (2 * N - 1) M (2 * M - 1) (fun n l q => get3 a n l q)) = vals3 a).
    { unfold vals3, mk3. cbn [dim0 dim1 dim2 get3]. rewrite R0, R1, R2. f_equal. apply functional_extensionality. intros n. apply functional_extensionality. intros l. apply functional_extensionality. intros q.
      destruct (inb (2 * N - 1) n && inb M l && inb (2 * M - 1) q) eqn:E; reflexivity. }
    split; [reflexivity|]. split; [discriminate|]. split; [reflexivity|]. split; [rewrite EV; split; [split; [exact R0|split; [exact R1|split; [exact R2|exact R3]]]|exact Hr]|].
    split; [symmetry; exact R0|]. split; [symmetry; exact R1|]. split; [symmetry; exact R2|]. cbn [vals3 dim0 dim1 dim2 mk3]. intros i j k Hi Hj Hk. rewrite get3_mk by lia. split; [apply Hn; lia|].
    rewrite get3_vals by lia. replace (cval (get3 a i j k) - cval (get3 a i j k))%C with (RtoC 0) by ring. rewrite Cmod_0.
    assert (0 <= bpow radix2 (-50) * B)%R by (apply Rmult_le_pos; [apply bpow_ge_0|]; pose proof (bpow_ge_0 radix2 (-900)); lra). lra.
Qed.

(*% L = 5, N = 3, scales 1 to 3: every hypothesis of the theorems of C74 is met, with coefficients 1 *)
(*@E C74_example *)
Lemma ex_c74 : exists fexp fpow flg fsum O psi phi sz ra rs f flm w sc T S,
  accurate_loggamma flg /\ relative_exp fexp /\ accurate_exp fexp /\ exact_powers fpow 3 /\ j_max 5 2 = Ok 3 /\ summation fsum /\ ssht_scheme MW /\
  filters_directional_vectorised_fp fexp fpow flg 3 5 3 1 (fint 2) 0 0 = Ok (psi, phi) /\
  (forall j, LN_j 5 j 3 2 true = Ok (sz j)) /\ scal_bandlimit 5 1 2 true = Ok 2 /\
  generate_full_precomputes_fp fpow 3 5 3 1 (fint 2) MW None false false false = Ok ra /\ generate_full_precomputes_fp fpow 3 5 3 1 (fint 2) MW None true false false = Ok rs /\
  (fwd64 (torch_lib O) f 5 0 MW None false = Ok flm /\ fwd64 (ssht_lib O) f 5 0 MW None false = Ok flm /\
   rows flm = 5 /\ cols flm = 9 /\ numbers2 (bpow radix2 900) flm /\ cval (get2 flm 2 5) = RtoC 1) /\
  (fwd64 (torch_lib O) sc 2 0 MW None false = Ok S /\ fwd64 (ssht_lib O) sc 2 0 MW None false = Ok S /\
   rows S = 2 /\ cols S = 3 /\ numbers2 (bpow radix2 900) S /\ cval (get2 S 1 2) = RtoC 1) /\
  forall j, 1 <= j <= 3 -> let '(Lj, Nj, L0j) := sz j in
    (exists fj, lrd w (j - 1) = Ok fj /\
      wfwd64 (torch_lib O) fj Lj Nj L0j MW false None = Ok (T j) /\ wfwd64 (ssht_lib O) fj Lj Nj L0j MW false None = Ok (T j)) /\
    dim0 (T j) = 2 * Nj - 1 /\ dim1 (T j) = Lj /\ dim2 (T j) = 2 * Lj - 1 /\ numbers3 (bpow radix2 900) (T j) /\ cval (get3 (T j) 0 0 0) = RtoC 1.
Proof.
  destruct ex_all as (fexp & fpow & flg & fsum & O & Oj & psi & phi & qa & ra & qs & rs & f & flm & w & sc & T & S & H1 & H2 & H3 & H4 & H5 & H6 & H7 & H8 & H9 & H10 & H11 & H12 & H13 & H14 & H15).
  destruct sz5 as [SZ SL]. exists fexp, fpow, flg, fsum, (back_of Oj), psi, phi, (szf 5 3 2 true), ra, rs, f, flm, w, sc, T, S.
  do 6 (split; [assumption|]). split; [exact I|]. do 5 (split; [assumption|]).
  split; [destruct H12 as (_ & X1 & X2 & X3); split; [exact X2|split; [exact X1|exact X3]]|].
  split; [destruct H14 as (_ & X1 & X2 & X3); split; [exact X2|split; [exact X1|exact X3]]|].
  intros j Hj. specialize (H15 j Hj). unfold szf in *. destruct H15 as ((fj & E1 & _ & E2 & E3) & X). split; [exists fj; split; [exact E1|split; [exact E3|exact E2]]|exact X].
Qed.

(** coefficients of a real signal *)
Definition ones_r : arr2 c64 := mk2 5 9 (fun l q => if (1 <=? l) && (Z.abs (q - 4) <=? l) then creal (fint (if (q <? 4) && Z.odd q then -1 else 1)) else creal (fint 0)).
Lemma ones_r_get l q : 0 <= l < 5 -> 0 <= q < 9 ->
  finite64 (get2 ones_r l q) /\ cval (get2 ones_r l q) = RtoC (if (1 <=? l) && (Z.abs (q - 4) <=? l) then (if (q <? 4) && Z.odd q then -1 else 1) else 0).
Proof.
  intros Hl Hq. unfold ones_r. rewrite get2_mk by lia.
  destruct ((1 <=? l) && (Z.abs (q - 4) <=? l)); [destruct ((q <? 4) && Z.odd q)|]; (split; [apply fin_creal, fint_fin; lia|rewrite cval_creal, fint_B2R by lia; reflexivity]).
Qed.

(*% L = 5, N = 3, scales 1 to 3: libraries accurate to 2^-50 meet all the hypotheses, and the coefficients
    of a signal whose coefficients are 1 come back within 1/100; for SSHT the signal is real *)
(*@E C75_example *)
Lemma ex_c75 : exists fexp fpow flg fsum O Or psi phi ra rs flm f w sc g flm' f' w' sc' g',
  accurate_loggamma flg /\ relative_exp fexp /\ accurate_exp fexp /\ exact_powers fpow 3 /\ j_max 5 2 = Ok 3 /\ summation fsum /\ ssht_scheme MW /\
  accurate64 false (bpow radix2 (-50)) (torch_lib O) 5 0 MW None false /\ accurate64 false (bpow radix2 (-50)) (ssht_lib Or) 5 0 MW None true /\
  filters_directional_vectorised_fp fexp fpow flg 3 5 3 1 (fint 2) 0 0 = Ok (psi, phi) /\
  generate_full_precomputes_fp fpow 3 5 3 1 (fint 2) MW None false false false = Ok ra /\ generate_full_precomputes_fp fpow 3 5 3 1 (fint 2) MW None true false false = Ok rs /\
  is_harmonic 5 0 false (vals2 flm) /\ numbers2 1 flm /\ inv64 (torch_lib O) flm 5 0 MW None false = Ok f /\
  is_harmonic 5 0 true (vals2 flm') /\ numbers2 1 flm' /\ inv64 (ssht_lib Or) flm' 5 0 MW None true = Ok f' /\ nd_real64 f' = f' /\
  torch_analysis_fp fpow O 3 f 5 3 1 (fint 2) 0 MW None false (Some (psi, phi)) (Some ra) = Ok (map Some w, sc) /\
  torch_synthesis_fp fpow fsum O 3 w sc 5 3 1 (fint 2) 0 MW None false (Some (psi, phi)) (Some rs) = inv64 (torch_lib O) g 5 0 MW None false /\
  ssht_analysis_fp fpow Or 3 f' 5 3 1 (fint 2) 0 MW true (Some (psi, phi)) = Ok (w', sc') /\
  ssht_synthesis_fp fpow fsum Or 3 w' sc' 5 3 1 (fint 2) 0 MW true (Some (psi, phi)) = inv64 (ssht_lib Or) g' 5 0 MW None true /\
  cval (get2 flm 2 5) = RtoC 1 /\ cval (get2 flm' 2 5) = RtoC 1 /\ cval (get2 flm' 2 3) = RtoC (-1) /\
  (Cmod (cval (get2 g 2 5) - RtoC 1)%C <= 1 / 100)%R /\ (Cmod (cval (get2 g' 2 5) - RtoC 1)%C <= 1 / 100)%R.
Proof.
  destruct j_max_5_2 as (EJ & _). pose proof (pow2_exact_powers 3 ltac:(lia)) as HP.
  assert (HH : is_harmonic 5 0 false (vals2 ones)).
  { split; [|discriminate]. split; [reflexivity|]. split; [reflexivity|]. intros l m Hne. unfold vals2 in Hne. cbn [get2 mk2] in Hne. change (rows ones) with 5 in Hne. change (cols ones) with 9 in Hne.
    destruct (inb 5 l && inb 9 (5 - 1 + m)) eqn:E; [|exfalso; apply Hne; reflexivity]. apply andb_prop in E as [I1 I2]. apply inb_true in I1, I2.
    rewrite (proj2 (ones_get l (5 - 1 + m) I1 I2)) in Hne. destruct ((1 <=? l) && (Z.abs (5 - 1 + m - 4) <=? l)) eqn:E; [|exfalso; apply Hne; reflexivity].
    apply andb_prop in E as [E1 E2]. apply Z.leb_le in E1, E2. replace (5 - 1 + m - 4) with m in E2 by lia. lia. }
  assert (NN : numbers2 1 ones).
  { intros i j Hi Hj. destruct (ones_get i j Hi Hj) as [F ->]. split; [exact F|]. destruct ((1 <=? i) && (Z.abs (j - 4) <=? i)); [rewrite Cmod_1|rewrite Cmod_0]; lra. }
  assert (HR : is_harmonic 5 0 true (vals2 ones_r)).
  { split; [split; [reflexivity|]; split; [reflexivity|]|].
    - intros l m Hne. unfold vals2 in Hne. cbn [get2 mk2] in Hne. change (rows ones_r) with 5 in Hne. change (cols ones_r) with 9 in Hne.
      destruct (inb 5 l && inb 9 (5 - 1 + m)) eqn:E; [|exfalso; apply Hne; reflexivity]. apply andb_prop in E as [I1 I2]. apply inb_true in I1, I2.
      rewrite (proj2 (ones_r_get l (5 - 1 + m) I1 I2)) in Hne. destruct ((1 <=? l) && (Z.abs (5 - 1 + m - 4) <=? l)) eqn:E; [|exfalso; apply Hne; reflexivity].
      apply andb_prop in E as [E1 E2]. apply Z.leb_le in E1, E2. replace (5 - 1 + m - 4) with m in E2 by lia. lia.
    - intros _ l m. unfold vals2. cbn [get2 mk2]. change (rows ones_r) with 5. change (cols ones_r) with 9.
      destruct (inb 5 l) eqn:El; [apply inb_true in El|cbn [andb]; apply injective_projections; cbn; ring].
      destruct (inb 9 (5 - 1 + m)) eqn:Em; cbn [andb].
      + assert (Em' : inb 9 (5 - 1 - m) = true) by (apply inb_true in Em; unfold inb; zb; lia). rewrite Em'. apply inb_true in Em, Em'.
        rewrite (proj2 (ones_r_get _ _ El Em)), (proj2 (ones_r_get _ _ El Em')).
        assert (m = -4 \/ m = -3 \/ m = -2 \/ m = -1 \/ m = 0 \/ m = 1 \/ m = 2 \/ m = 3 \/ m = 4) as HM by lia. rewrite sign_msgn.
        replace (Z.abs (5 - 1 - m - 4)) with (Z.abs m) by lia. replace (Z.abs (5 - 1 + m - 4)) with (Z.abs m) by lia.
        destruct ((1 <=? l) && (Z.abs m <=? l)); [|apply injective_projections; cbn [fst snd RtoC Cmult Cconj]; ring].
        destruct HM as [->|[->|[->|[->|[->|[->|[->|[->| ->]]]]]]]];
          apply injective_projections; cbn; ring.
      + assert (Em' : inb 9 (5 - 1 - m) = false) by (unfold inb in *; zb; lia). rewrite Em'. cbn [andb]. apply injective_projections; cbn; ring. }
  assert (NR : numbers2 1 ones_r).
  { intros i j Hi Hj. destruct (ones_r_get i j Hi Hj) as [F ->]. split; [exact F|]. rewrite Cmod_R.
    destruct ((1 <=? i) && (Z.abs (j - 4) <=? i)); [destruct ((j <? 4) && Z.odd j)|]; unfold Rabs; destruct Rcase_abs; lra. }
  assert (B1 : (bpow radix2 (-900) <= 1 <= bpow radix2 780)%R) by (change 1%R with (bpow radix2 0); split; apply bpow_le; lia).
  destruct (fp2_dirf_total near_exp pow2 near_lg 3 5 3 1 0 0 ltac:(lia) ltac:(left; lia) ltac:(lia) HP) as [_ ([psi phi] & E2)].
  pose proof (szs pow2 5 3 3 true ltac:(lia) ltac:(lia) HP) as SZ2.
  assert (GF : forall fw, exists q, generate_full_precomputes_fp pow2 3 5 3 1 (fint 2) MW None fw false false = Ok q).
  { intros fw. eexists. apply (gen_full64 pow2 5 3 1 3 (fint 2) (fun j => Lj_of 5 j 2 true) (fun j => Nj_of 5 j 3 2 true) (fun j => L0_of j 2 true) (Ls_of 5 1 2 true)); [lia| |].
    - intros; apply SZ2; lia.
    - apply SZ2. lia. }
  destruct (GF false) as [ra Era]. destruct (GF true) as [rs Ers].
  set (fs := fun (_ _ : Z) (xs : list f64) => fold_right fadd (fint 0) xs). destruct (jstore_accurate 5) as [_ A1]. pose proof (rstore_accurate 5) as A2.
  change (accurate64 false (bpow radix2 (-50)) (torch_lib (back_of jstore)) 5 0 MW None false) in A1.
  set (f := Nd64 [5; 9] (fun ix => match ix with [l; q] => get2 ones l q | _ => creal (fint 0) end)).
  set (f' := rinv ones_r 5).
  assert (D : (0 <= bpow radix2 (-50) <= 1)%R) by (change 1%R with (bpow radix2 0); split; [apply bpow_ge_0|apply bpow_le; lia]).
  destruct (rt_torch64 near_exp pow2 near_lg fs (back_of jstore) 3 ones f 5 3 1 0 MW None false (bpow radix2 (-50)) 1 psi phi ra rs
    ltac:(lia) ltac:(lia) ltac:(lia) near_loggamma near_relative near_accurate HP EJ ltac:(lia) right_summation D B1 A1 E2 Era Ers HH NN eq_refl) as (w & sc & g & EA & ES & _ & G).
  destruct (rt_ssht64 near_exp pow2 near_lg fs rstore 3 ones_r f' 5 3 1 0 MW None true (bpow radix2 (-50)) 1 psi phi
    ltac:(lia) ltac:(lia) ltac:(lia) near_loggamma near_relative near_accurate HP EJ ltac:(lia) right_summation D B1 A2 E2 I (fun _ => nd_real_rinv ones_r 5) HR NR eq_refl) as (w' & sc' & g' & EA' & ES' & _ & G').
  assert (V : cval (get2 ones 2 5) = RtoC 1) by apply (ones_get 2 5 ltac:(lia) ltac:(lia)).
  assert (V' : cval (get2 ones_r 2 5) = RtoC 1) by apply (ones_r_get 2 5 ltac:(lia) ltac:(lia)).
  assert (V3 : cval (get2 ones_r 2 3) = RtoC (-1)) by apply (ones_r_get 2 3 ltac:(lia) ltac:(lia)).
  assert (FIN : forall x z, cval x = RtoC 1 -> (Cmod (cval z - cval x)%C <= (quad_error 2 300 + bpow radix2 (-32)) * Cmod (cval x) + bpow radix2 (-50) * 1 * (3 * sqrt (IZR (3 * (3 + 1) * (2 * 2 + 1))) + 21) + bpow radix2 (-1000))%R ->
    (Cmod (cval z - RtoC 1)%C <= 1 / 100)%R).
  { intros x z Vx K. rewrite Vx, Cmod_1 in K. pose proof quad_err2 as QE. eapply Rle_trans; [exact K|].
    assert (T2 : (bpow radix2 (-1000) <= bpow radix2 (-32))%R) by (apply bpow_le; lia). change (bpow radix2 (-32)) with (/ 4294967296)%R in *. change (bpow radix2 (-50)) with (/ 1125899906842624)%R.
    assert (SQ : (sqrt (IZR (3 * (3 + 1) * (2 * 2 + 1))) <= 8)%R) by (rewrite <- (sqrt_square 8) by lra; apply sqrt_le_1_alt; simpl; lra). lra. }
  exists near_exp, pow2, near_lg, fs, (back_of jstore), rstore, psi, phi, ra, rs, ones, f, w, sc, g, ones_r, f', w', sc', g'.
  split; [apply near_loggamma|]. split; [apply near_relative|]. split; [apply near_accurate|]. split; [exact HP|]. split; [exact EJ|]. split; [apply right_summation|]. split; [exact I|].
  split; [exact A1|]. split; [exact A2|]. split; [exact E2|]. split; [exact Era|]. split; [exact Ers|].
  split; [exact HH|]. split; [exact NN|]. split; [reflexivity|]. split; [exact HR|]. split; [exact NR|]. split; [reflexivity|]. split; [apply nd_real_rinv|].
  split; [exact EA|]. split; [exact ES|]. split; [exact EA'|]. split; [exact ES'|]. split; [exact V|]. split; [exact V'|]. split; [exact V3|].
  split; [apply (FIN _ _ V), (G 2 5); lia|apply (FIN _ _ V'), (G' 2 5); lia].
Qed.

(*% L = 5, N = 3, scales 1 to 3: every hypothesis of the theorems of C76 is met, with coefficients 1; for
    JAX and SSHT the top scale may be 2 *)
(*@E C76_example *)
Lemma ex_c76 : exists fexp fpow flg psi phi sz qa ra flm,
  accurate_loggamma flg /\ relative_exp fexp /\ accurate_exp fexp /\ exact_powers fpow 3 /\ j_max 5 2 = Ok 3 /\ ssht_scheme MW /\
  filters_directional_vectorised_fp fexp fpow flg 3 5 3 1 (fint 2) 0 0 = Ok (psi, phi) /\ 1 <= 2 <= 3 /\
  generate_wigner_precomputes_fp fpow 3 5 3 1 (fint 2) MW None false false = Ok qa /\ generate_full_precomputes_fp fpow 3 5 3 1 (fint 2) MW None false false false = Ok ra /\
  (forall j, LN_j 5 j 3 2 true = Ok (sz j)) /\ rows flm = 5 /\ cols flm = 9 /\ numbers2 (bpow radix2 900) flm /\ cval (get2 flm 2 5) = RtoC 1.
Proof.
  destruct ex_all as (fexp & fpow & flg & fsum & O & Oj & psi & phi & qa & ra & qs & rs & f & flm & w & sc & T & S & H1 & H2 & H3 & H4 & H5 & H6 & H7 & H8 & H9 & H10 & H11 & H12 & H13 & H14 & H15).
  destruct sz5 as [SZ SL]. exists fexp, fpow, flg, psi, phi, (szf 5 3 2 true), qa, ra, flm.
  do 5 (split; [assumption|]). split; [exact I|]. split; [assumption|]. split; [lia|]. do 3 (split; [assumption|]). tauto.
Qed.

(*% the same again: every hypothesis of the two theorems of C77 is met *)
(*@E C77_example *)
Lemma ex_c77 : exists fexp fpow flg O Oj psi phi sz qa ra qs rs f flm w sc T S,
  accurate_loggamma flg /\ relative_exp fexp /\ accurate_exp fexp /\ exact_powers fpow 3 /\ j_max 5 2 = Ok 3 /\ ssht_scheme MW /\
  filters_directional_vectorised_fp fexp fpow flg 3 5 3 1 (fint 2) 0 0 = Ok (psi, phi) /\
  (forall j, LN_j 5 j 3 2 true = Ok (sz j)) /\ scal_bandlimit 5 1 2 true = Ok 2 /\
  generate_wigner_precomputes_fp fpow 3 5 3 1 (fint 2) MW None false false = Ok qa /\ generate_full_precomputes_fp fpow 3 5 3 1 (fint 2) MW None false false false = Ok ra /\
  generate_wigner_precomputes_fp fpow 3 5 3 1 (fint 2) MW None true false = Ok qs /\ generate_full_precomputes_fp fpow 3 5 3 1 (fint 2) MW None true false false = Ok rs /\
  (fwd64 (jax_lib Oj) f 5 0 MW None false = Ok flm /\ fwd64 (pre_lib Oj) f 5 0 MW None false = Ok flm /\
   fwd64 (torch_lib O) f 5 0 MW None false = Ok flm /\ fwd64 (ssht_lib O) f 5 0 MW None false = Ok flm /\
   rows flm = 5 /\ cols flm = 9 /\ cval (get2 flm 2 5) = RtoC 1) /\
  (fwd64 (jax_lib Oj) sc 2 0 MW None false = Ok S /\ fwd64 (pre_lib Oj) sc 2 0 MW None false = Ok S /\
   fwd64 (torch_lib O) sc 2 0 MW None false = Ok S /\ fwd64 (ssht_lib O) sc 2 0 MW None false = Ok S /\
   rows S = 2 /\ cols S = 3 /\ cval (get2 S 1 2) = RtoC 1) /\
  forall j, 1 <= j <= 3 -> let '(Lj, Nj, L0j) := sz j in
    dim0 (T j) = 2 * Nj - 1 /\ dim1 (T j) = Lj /\ dim2 (T j) = 2 * Lj - 1 /\ cval (get3 (T j) 0 0 0) = RtoC 1 /\
    exists fj, lrd w (j - 1) = Ok fj /\
      wfwd64 (jax_lib Oj) fj Lj Nj L0j MW false None = Ok (T j) /\ wfwd64 (pre_lib Oj) fj Lj Nj L0j MW false None = Ok (T j) /\
      wfwd64 (torch_lib O) fj Lj Nj L0j MW false None = Ok (T j) /\ wfwd64 (ssht_lib O) fj Lj Nj L0j MW false None = Ok (T j).
Proof.
  destruct ex_all as (fexp & fpow & flg & fsum & O & Oj & psi & phi & qa & ra & qs & rs & f & flm & w & sc & T & S & H1 & H2 & H3 & H4 & H5 & H6 & H7 & H8 & H9 & H10 & H11 & H12 & H13 & H14 & H15).
  destruct sz5 as [SZ SL]. exists fexp, fpow, flg, (back_of Oj), Oj, psi, phi, (szf 5 3 2 true), qa, ra, qs, rs, f, flm, w, sc, T, S.
  do 5 (split; [assumption|]). split; [exact I|]. do 7 (split; [assumption|]).
  destruct H12 as (_ & X1 & X2 & X3 & X4 & _ & X5). destruct H14 as (_ & Y1 & Y2 & Y3 & Y4 & _ & Y5).
  split; [split; [exact X1|split; [exact X2|split; [exact X2|split; [exact X1|auto]]]]|].
  split; [split; [exact Y1|split; [exact Y2|split; [exact Y2|split; [exact Y1|auto]]]]|].
  intros j Hj. specialize (H15 j Hj). unfold szf in *. destruct H15 as ((fj & E1 & _ & E2 & E3) & A1 & A2 & A3 & _ & A5). do 4 (split; [assumption|]).
  exists fj. split; [exact E1|split; [exact E2|split; [exact E3|split; [exact E3|exact E2]]]].
Qed.
