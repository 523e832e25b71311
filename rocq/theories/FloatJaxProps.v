(** Statements and proofs for PropertiesFloatJax.v *)

From Coq Require Import ZArith Reals List Bool Permutation Lia Lra Psatz FunctionalExtensionality.
From Coquelicot Require Import Rcomplements Complex.
From Flocq Require Import Core Relative IEEE754.BinarySingleNaN.
From Verif Require Import Py PyFacts ModelSamples SamplesFacts ModelFilters ModelTransforms FiltersFacts AxisymFacts DirectionFacts DirFilterFacts
  Spec SpecTransforms SpecQuad FiltersProps TransformsFacts BackendFacts LoopFacts ReconFacts RoundFacts TransformsProps SignalProps FrameProps.
From Verif Require Import ModelFloat ModelFloatDir ModelFloatTrans ModelFloatJax FloatProps SpecFp SpecFpDir SpecFpTrans SpecFpJax FloatFilterProps FloatDefault FloatAccProps FloatDirFacts FloatDirProps
  FloatDirFilterProps FloatSpinProps FloatTransFacts FloatTransFilt FloatTransErr FloatTransCore FloatTransRound FloatTransSum FloatTransTrip FloatTransClosed FloatTransProps FloatJaxFacts SamplesProps.
From Verif Require Import FloatFacts.
Import ListNotations.
Open Scope Z_scope.

(*T The JAX transforms in binary64 *)
(*! From Coq Require Import ZArith Reals List Bool. *)
(*! From Coquelicot Require Import Complex. *)
(*! From Flocq Require Import Core IEEE754.BinarySingleNaN. *)
(*! Import ListNotations. *)
(*! From Verif Require Import Py ModelSamples ModelFilters ModelTransforms ModelFloat ModelFloatDir ModelFloatTrans ModelFloatJax Spec SpecTransforms SpecQuad SpecFp SpecFpDir SpecFpTrans SpecFpJax. *)

(** the kernels of the last two scales are the same *)
Lemma top_sizes L N J : 1 <= L -> j_max L 2 = Ok J -> 1 <= J -> Lj_of L (J - 1) 2 true = Lj_of L J 2 true /\ Nj_of L (J - 1) N 2 true = Nj_of L J N 2 true.
Proof.
  intros HL EJ HJ. assert (Lj_of L (J - 1) 2 true = L) as E1 by (apply (Lj_full _ _ _ _ J); auto; lra || lia).
  assert (Lj_of L J 2 true = L) as E2 by (apply (Lj_full _ _ _ _ J); auto; lra || lia). split; [congruence|]. unfold Nj_of. now rewrite E1, E2.
Qed.

(*% ** C71: what the JAX and the precompute transforms hand to s2fft *)

(*@ C71_jax_analysis_coefficients *)
Lemma jan : forall fexp fpow flg O J f flm L N J_min spin s nside reality psi phi sz Ls q p,
  1 <= L <= 2 ^ 52 -> 1 <= N <= L -> N <= 41 -> accurate_loggamma flg -> relative_exp fexp -> accurate_exp fexp -> exact_powers fpow J -> j_max L 2 = Ok J ->
  filters_directional_vectorised_fp fexp fpow flg J L N J_min (fint 2) spin 0 = Ok (psi, phi) ->
  generate_wigner_precomputes_fp fpow J L N J_min (fint 2) s nside false reality = Ok q -> (p = None \/ p = Some q) ->
  (forall j, LN_j L j N 2 true = Ok (sz j)) -> scal_bandlimit L J_min 2 true = Ok Ls ->
  jf64 O f L spin nside s reality = Ok flm -> rows flm = L -> cols flm = 2 * L - 1 -> numbers2 (bpow radix2 900) flm ->
  exists W S,
    jax_analysis_fp fpow O J f L N J_min (fint 2) spin s nside reality (Some (psi, phi)) p
    = (w <- mapM (fun j => let '(Lj, Nj, L0j) := sz j in winv64 (jax_lib O) (W j) Lj Nj L0j s reality nside) (zrange J_min (J + 1)) ;;
       sc <- inv64 (jax_lib O) S Ls spin s nside reality ;;
       Ok (w, sc)) /\
    (forall j, J_min <= j <= J -> near3 (bpow radix2 (-49)) (bpow radix2 (-1073)) (W j) (wcoefs L (vals3 psi) (vals2 flm) sz j)) /\
    near2 (bpow radix2 (-49)) (bpow radix2 (-1073)) S (scaling_coefs L (vals1 phi) (vals2 flm) Ls).
Proof.
  intros fexp fpow flg O J f flm L N J_min spin s nside reality psi phi sz Ls q p HL HN HN' Hg Hr Hf HP EJ EF Eq Hp Esz ELs Ef R1 R2 Hn.
  pose proof (filt64 fexp fpow flg J L N J_min spin psi phi HL ltac:(lia) Hg Hr Hf HP EJ (or_intror EF)) as HF. pose proof (f_range _ _ _ _ _ _ _ _ HF) as HJ.
  pose proof (J_le L J HL EJ) as HJ52. destruct (dims L N J_min J spin psi phi HF) as (D0 & D1 & D2 & D3 & _).
  rewrite (sz_eq L N 2 true sz ltac:(lra) Esz), (Ls_eq L J_min 2 true Ls ltac:(lra) ELs).
  pose proof (szs fpow L N J true HL ltac:(lia) HP) as SZ.
  assert (SZ' : forall j, J_min <= j <= J -> LN_j_fp fpow L j N (fint 2) true = Ok (Lj_of L j 2 true, Nj_of L j N 2 true, L0_of j 2 true)) by (intros; apply SZ; lia).
  rewrite (gen_wigner64 fpow L N J_min J (fint 2) (fun j => Lj_of L j 2 true) (fun j => Nj_of L j N 2 true) (fun j => L0_of j 2 true)) in Eq by (auto; lia).
  apply Ok_inj in Eq. subst q.
  exists (wj L (fun j => Lj_of L j 2 true) (fun j => Nj_of L j N 2 true) (fun j => L0_of j 2 true) psi flm), (sca64 L phi flm (Ls_of L J_min 2 true)). split; [|split].
  - rewrite (jan64 fpow L N J_min J (fint 2) (fun j => Lj_of L j 2 true) (fun j => Nj_of L j N 2 true) (fun j => L0_of j 2 true) (Ls_of L J_min 2 true)); auto; try lia.
    + cbn [fwd64 jax_lib]. rewrite Ef. cbn [bind]. reflexivity.
    + intros j Hj. destruct (Hsz L N J_min J spin true psi phi HL HN HF j Hj) as (Z1 & Z2 & Z3 & Z4). lia.
    + apply SZ. lia.
    + apply (HLs L J_min true HL).
    + intros flm' E. rewrite Ef in E. apply Ok_inj in E. subst flm'. auto.
  - intros j Hj. apply (same3_near _ _ _ _ _ (wavj_same L _ _ _ j psi flm)). apply (wav_near L N J_min J spin true psi phi); auto. intros. apply (size_psi fexp fpow flg J L N J_min spin psi phi); auto; lia.
  - apply (sca_near L N J_min J spin true psi phi); auto. intros. apply (size_phi fexp fpow flg J L N J_min spin psi phi); auto; lia.
Qed.

(*@ C71_precompute_analysis_coefficients *)
Lemma pan : forall fexp fpow flg O J f flm L N J_min spin s nside reality psi phi sz Ls q,
  1 <= L <= 2 ^ 52 -> 1 <= N <= L -> N <= 41 -> accurate_loggamma flg -> relative_exp fexp -> accurate_exp fexp -> exact_powers fpow J -> j_max L 2 = Ok J ->
  filters_directional_vectorised_fp fexp fpow flg J L N J_min (fint 2) spin 0 = Ok (psi, phi) ->
  generate_full_precomputes_fp fpow J L N J_min (fint 2) s nside false reality false = Ok q ->
  (forall j, LN_j L j N 2 true = Ok (sz j)) -> scal_bandlimit L J_min 2 true = Ok Ls ->
  fwd64 (pre_lib O) f L spin s nside reality = Ok flm -> rows flm = L -> cols flm = 2 * L - 1 -> numbers2 (bpow radix2 900) flm ->
  exists W S,
    pre_analysis_fp fpow O J f L N J_min (fint 2) spin s nside reality (Some (psi, phi)) (Some q)
    = (w <- mapM (fun j => let '(Lj, Nj, L0j) := sz j in winv64 (pre_lib O) (W j) Lj Nj L0j s reality nside) (zrange J_min (J + 1)) ;;
       sc <- inv64 (pre_lib O) S Ls spin s nside reality ;;
       Ok (w, sc)) /\
    (forall j, J_min <= j <= J -> near3 (bpow radix2 (-49)) (bpow radix2 (-1073)) (W j) (wcoefs L (vals3 psi) (vals2 flm) sz j)) /\
    near2 (bpow radix2 (-49)) (bpow radix2 (-1073)) S (scaling_coefs L (vals1 phi) (vals2 flm) Ls).
Proof.
  intros fexp fpow flg O J f flm L N J_min spin s nside reality psi phi sz Ls q HL HN HN' Hg Hr Hf HP EJ EF Eq Esz ELs Ef R1 R2 Hn.
  pose proof (filt64 fexp fpow flg J L N J_min spin psi phi HL ltac:(lia) Hg Hr Hf HP EJ (or_intror EF)) as HF. pose proof (f_range _ _ _ _ _ _ _ _ HF) as HJ.
  pose proof (J_le L J HL EJ) as HJ52. destruct (dims L N J_min J spin psi phi HF) as (D0 & D1 & D2 & D3 & _).
  rewrite (sz_eq L N 2 true sz ltac:(lra) Esz), (Ls_eq L J_min 2 true Ls ltac:(lra) ELs).
  pose proof (szs fpow L N J true HL ltac:(lia) HP) as SZ. destruct (top_sizes L N J ltac:(lia) EJ ltac:(lia)) as [TS1 TS2].
  assert (SZ' : forall j, J_min <= j <= J -> LN_j_fp fpow L j N (fint 2) true = Ok (Lj_of L j 2 true, Nj_of L j N 2 true, L0_of j 2 true)) by (intros; apply SZ; lia).
  rewrite (gen_full64 fpow L N J_min J (fint 2) (fun j => Lj_of L j 2 true) (fun j => Nj_of L j N 2 true) (fun j => L0_of j 2 true) (Ls_of L J_min 2 true)) in Eq by (auto; try lia; apply SZ; lia).
  apply Ok_inj in Eq. subst q. cbn [negb].
  exists (wj L (fun j => Lj_of L j 2 true) (fun j => Nj_of L j N 2 true) (fun j => L0_of j 2 true) psi flm), (sca64 L phi flm (Ls_of L J_min 2 true)). split; [|split].
  - rewrite (pan64 fpow L N J_min J (fint 2) (fun j => Lj_of L j 2 true) (fun j => Nj_of L j N 2 true) (fun j => L0_of j 2 true) (Ls_of L J_min 2 true)); auto; try lia.
    + rewrite Ef. cbn [bind]. reflexivity.
    + intros j Hj. destruct (Hsz L N J_min J spin true psi phi HL HN HF j Hj) as (Z1 & Z2 & Z3 & Z4). lia.
    + apply SZ. lia.
    + apply (HLs L J_min true HL).
    + intros flm' E. rewrite Ef in E. apply Ok_inj in E. subst flm'. auto.
  - intros j Hj. apply (same3_near _ _ _ _ _ (wavj_same L _ _ _ j psi flm)). apply (wav_near L N J_min J spin true psi phi); auto. intros. apply (size_psi fexp fpow flg J L N J_min spin psi phi); auto; lia.
  - apply (sca_near L N J_min J spin true psi phi); auto. intros. apply (size_phi fexp fpow flg J L N J_min spin psi phi); auto; lia.
Qed.

(** a synthesis given in closed form *)
Lemma syn_core fexp fpow flg fsum O J f_wav f_scal T S L N J_min spin s nside reality psi phi sz Ls (sy : res nd64) :
  1 <= L <= 2 ^ 52 -> 1 <= N <= L -> N <= 41 -> accurate_loggamma flg -> relative_exp fexp -> accurate_exp fexp -> exact_powers fpow J -> j_max L 2 = Ok J ->
  filters_directional_vectorised_fp fexp fpow flg J L N J_min (fint 2) spin 0 = Ok (psi, phi) -> summation fsum ->
  (forall j, LN_j L j N 2 true = Ok (sz j)) -> scal_bandlimit L J_min 2 true = Ok Ls ->
  fwd64 O f_scal Ls spin s nside reality = Ok S -> rows S = Ls -> cols S = 2 * Ls - 1 -> numbers2 (bpow radix2 900) S ->
  (forall j, J_min <= j <= J -> let '(Lj, Nj, L0j) := sz j in
     (exists fj, lrd f_wav (j - J_min) = Ok fj /\ wfwd64 O fj Lj Nj L0j s reality nside = Ok (T j)) /\
     dim0 (T j) = 2 * Nj - 1 /\ dim1 (T j) = Lj /\ dim2 (T j) = 2 * Lj - 1 /\ numbers3 (bpow radix2 900) (T j)) ->
  (0 <= J_min < J -> (forall j, J_min <= j <= J -> LN_j_fp fpow L j N (fint 2) true = Ok (Lj_of L j 2 true, Nj_of L j N 2 true, L0_of j 2 true)) ->
   scal_bandlimit_fp fpow L J_min (fint 2) true = Ok (Ls_of L J_min 2 true) -> 1 <= Ls_of L J_min 2 true <= L ->
   (forall j, J_min <= j <= J -> 0 <= L0_of j 2 true <= Lj_of L j 2 true /\ 1 <= Lj_of L j 2 true <= L /\ 1 <= Nj_of L j N 2 true <= L) ->
   dim0 psi = J + 1 -> dim1 psi = L -> dim2 psi = 2 * L - 1 -> len1 phi = L -> 2 <= L ->
   (forall S, fwd64 O f_scal (Ls_of L J_min 2 true) spin s nside reality = Ok S -> rows S = Ls_of L J_min 2 true /\ cols S = 2 * Ls_of L J_min 2 true - 1) ->
   (forall j fj T, J_min <= j <= J -> lrd f_wav (j - J_min) = Ok fj ->
     wfwd64 O fj (Lj_of L j 2 true) (Nj_of L j N 2 true) (L0_of j 2 true) s reality nside = Ok T ->
     dim0 T = 2 * Nj_of L j N 2 true - 1 /\ dim1 T = Lj_of L j 2 true /\ dim2 T = 2 * Lj_of L j 2 true - 1) ->
   sy = (S <- fwd64 O f_scal (Ls_of L J_min 2 true) spin s nside reality ;;
         Ts <- mapM (fun j => fj <- lrd f_wav (j - J_min) ;; wfwd64 O fj (Lj_of L j 2 true) (Nj_of L j N 2 true) (L0_of j 2 true) s reality nside) (zrange J_min (J + 1)) ;;
         inv64 O (syn64 fsum L J_min J (fun j => Lj_of L j 2 true) (fun j => Nj_of L j N 2 true) (fun j => L0_of j 2 true) (Ls_of L J_min 2 true) psi phi Ts S) L spin s nside reality)) ->
  exists g,
    sy = inv64 O g L spin s nside reality /\
    rows g = L /\ cols g = 2 * L - 1 /\
    (forall l q, 0 <= l < L -> 0 <= q < 2 * L - 1 ->
      finite64 (get2 g l q) /\
      (Cmod (cval (get2 g l q) - get2 (synthesised L J_min J (vals3 psi) (vals1 phi) sz (fun j => vals3 (T j)) Ls (vals2 S)) l q)%C
       <= IZR (N + J + 8) * bpow radix2 (-52) *
          Cmod (get2 (synthesised L J_min J (abs3 (vals3 psi)) (abs1 (vals1 phi)) sz (fun j => abs3 (vals3 (T j))) Ls (abs2 (vals2 S))) l q) + bpow radix2 (-1060))%R) /\
    g = syn64 fsum L J_min J (fun j => Lj_of L j 2 true) (fun j => Nj_of L j N 2 true) (fun j => L0_of j 2 true) (Ls_of L J_min 2 true) psi phi (map T (zrange J_min (J + 1))) S.
Proof.
  intros HL HN HN' Hg Hr Hf HP EJ EF Hfs Esz ELs ES R1 R2 Hn HT Hsy.
  pose proof (filt64 fexp fpow flg J L N J_min spin psi phi HL ltac:(lia) Hg Hr Hf HP EJ (or_intror EF)) as HF. pose proof (f_range _ _ _ _ _ _ _ _ HF) as HJ.
  pose proof (J_le L J HL EJ) as HJ52. destruct (dims L N J_min J spin psi phi HF) as (D0 & D1 & D2 & D3 & _).
  rewrite (sz_eq L N 2 true sz ltac:(lra) Esz) in *. rewrite (Ls_eq L J_min 2 true Ls ltac:(lra) ELs) in *. clear Esz ELs sz Ls.
  pose proof (szs fpow L N J true HL ltac:(lia) HP) as SZ. set (Ts := map T (zrange J_min (J + 1))).
  assert (TN : forall j, J_min <= j <= J -> Tnth nd30 J_min Ts j = T j) by (intros j Hj; unfold Ts; apply Tnth_map; lia).
  assert (Hp : forall j l n, J_min <= j <= J -> 0 <= l < L -> Z.abs n < L -> let z := get3 psi j l (L - 1 + n) in finite64 z /\ exists v, cval z = Cmult (nu N) (RtoC v) /\ fsize (w8 l) v)
    by (intros; apply (size_psi fexp fpow flg J L N J_min spin psi phi); auto; lia).
  assert (Hq : forall l, 0 <= l < L -> is_finite (get1 phi l) = true /\ fsize (w4 l * w4 l) (B2R (get1 phi l)))
    by (intros; apply (size_phi fexp fpow flg J L N J_min spin psi phi); auto; lia).
  exists (syn64 fsum L J_min J (fun j => Lj_of L j 2 true) (fun j => Nj_of L j N 2 true) (fun j => L0_of j 2 true) (Ls_of L J_min 2 true) psi phi Ts S).
  split; [|split; [reflexivity|split; [reflexivity|split; [|reflexivity]]]].
  - rewrite Hsy; auto; try lia.
    + rewrite ES. cbn [bind]. rewrite (mapM_ok _ T); [reflexivity|]. intros j Hj. apply In_zrange in Hj.
      pose proof (HT j ltac:(lia)) as X. unfold szf in X. destruct X as ((fj & E1 & E2) & _). rewrite E1. cbn [bind]. exact E2.
    + intros j Hj. apply SZ. lia.
    + apply SZ. lia.
    + apply (HLs L J_min true HL).
    + intros j Hj. destruct (Hsz L N J_min J spin true psi phi HL HN HF j Hj) as (Z1 & Z2 & Z3 & Z4). lia.
    + destruct (Z.eq_dec L 1) as [->|]; [|lia]. exfalso. destruct j_max_5_2 as (_ & E1' & _). rewrite E1' in EJ. apply Ok_inj in EJ. lia.
    + intros S' E. rewrite ES in E. apply Ok_inj in E. subst S'. auto.
    + intros j fj T' Hj E1 E2. pose proof (HT j Hj) as X. unfold szf in X. destruct X as ((fj' & E1' & E2') & A1 & A2 & A3 & _).
      assert (fj' = fj) as -> by congruence. assert (T' = T j) as -> by congruence. auto.
  - intros l q Hl Hq'.
    destruct (syn_near L N J_min J spin true psi phi HL HN HN' ltac:(lia) HF Hp Hq fsum Ts S l q Hfs) as (F & E & _); auto.
    { intros j Hj. cbv zeta. rewrite TN by exact Hj. pose proof (HT j Hj) as X. unfold szf in X. tauto. }
    split; [exact F|]. 
    rewrite (synth_ext _ _ _ _ _ _ (fun j => vals3 (T j)) (fun j => vals3 (Tnth nd30 J_min Ts j))) by (intros j Hj; now rewrite TN).
    rewrite (synth_ext _ _ _ (abs3 (vals3 psi)) _ _ (fun j => abs3 (vals3 (T j))) (fun j => abs3 (vals3 (Tnth nd30 J_min Ts j)))) by (intros j Hj; now rewrite TN).
    exact E.
Qed.

(*@ C71_jax_synthesis_coefficients *)
Lemma jsy : forall fexp fpow flg fsum O J f_wav f_scal T S L N J_min spin s nside reality psi phi sz Ls q p,
  1 <= L <= 2 ^ 52 -> 1 <= N <= L -> N <= 41 -> accurate_loggamma flg -> relative_exp fexp -> accurate_exp fexp -> exact_powers fpow J -> j_max L 2 = Ok J ->
  filters_directional_vectorised_fp fexp fpow flg J L N J_min (fint 2) spin 0 = Ok (psi, phi) -> summation fsum ->
  generate_wigner_precomputes_fp fpow J L N J_min (fint 2) s nside true reality = Ok q -> (p = None \/ p = Some q) ->
  (forall j, LN_j L j N 2 true = Ok (sz j)) -> scal_bandlimit L J_min 2 true = Ok Ls ->
  fwd64 (jax_lib O) f_scal Ls spin s nside reality = Ok S -> rows S = Ls -> cols S = 2 * Ls - 1 -> numbers2 (bpow radix2 900) S ->
  (forall j, J_min <= j <= J -> let '(Lj, Nj, L0j) := sz j in
     (exists fj, lrd f_wav (j - J_min) = Ok fj /\ wfwd64 (jax_lib O) fj Lj Nj L0j s reality nside = Ok (T j)) /\
     dim0 (T j) = 2 * Nj - 1 /\ dim1 (T j) = Lj /\ dim2 (T j) = 2 * Lj - 1 /\ numbers3 (bpow radix2 900) (T j)) ->
  exists g,
    jax_synthesis_fp fpow fsum O J f_wav f_scal L N J_min (fint 2) spin s nside reality (Some (psi, phi)) p = inv64 (jax_lib O) g L spin s nside reality /\
    rows g = L /\ cols g = 2 * L - 1 /\
    forall l m, 0 <= l < L -> 0 <= m < 2 * L - 1 ->
      finite64 (get2 g l m) /\
      (Cmod (cval (get2 g l m) - get2 (synthesised L J_min J (vals3 psi) (vals1 phi) sz (fun j => vals3 (T j)) Ls (vals2 S)) l m)%C
       <= IZR (N + J + 8) * bpow radix2 (-52) *
          Cmod (get2 (synthesised L J_min J (abs3 (vals3 psi)) (abs1 (vals1 phi)) sz (fun j => abs3 (vals3 (T j))) Ls (abs2 (vals2 S))) l m) + bpow radix2 (-1060))%R.
Proof.
  intros fexp fpow flg fsum O J f_wav f_scal T S L N J_min spin s nside reality psi phi sz Ls q p HL HN HN' Hg Hr Hf HP EJ EF Hfs Eq Hp Esz ELs ES R1 R2 Hn HT.
  destruct (syn_core fexp fpow flg fsum (jax_lib O) J f_wav f_scal T S L N J_min spin s nside reality psi phi sz Ls
    (jax_synthesis_fp fpow fsum O J f_wav f_scal L N J_min (fint 2) spin s nside reality (Some (psi, phi)) p) HL HN HN' Hg Hr Hf HP EJ EF Hfs Esz ELs ES R1 R2 Hn HT) as (g & E1 & E2 & E3 & E4 & _); [|now exists g].
  intros HJ SZ SL HLs' Szj D0 D1 D2 D3 HL2 HS HT'.
  rewrite (gen_wigner64 fpow L N J_min J (fint 2) (fun j => Lj_of L j 2 true) (fun j => Nj_of L j N 2 true) (fun j => L0_of j 2 true)) in Eq by (auto; lia).
  apply Ok_inj in Eq. subst q.
  apply (jsy64 fpow fsum L N J_min J (fint 2) (fun j => Lj_of L j 2 true) (fun j => Nj_of L j N 2 true) (fun j => L0_of j 2 true) (Ls_of L J_min 2 true)); auto; lia.
Qed.

(*@ C71_precompute_synthesis_coefficients *)
Lemma psy : forall fexp fpow flg fsum O J f_wav f_scal T S L N J_min spin s nside reality psi phi sz Ls q,
  1 <= L <= 2 ^ 52 -> 1 <= N <= L -> N <= 41 -> accurate_loggamma flg -> relative_exp fexp -> accurate_exp fexp -> exact_powers fpow J -> j_max L 2 = Ok J ->
  filters_directional_vectorised_fp fexp fpow flg J L N J_min (fint 2) spin 0 = Ok (psi, phi) -> summation fsum ->
  generate_full_precomputes_fp fpow J L N J_min (fint 2) s nside true reality false = Ok q ->
  (forall j, LN_j L j N 2 true = Ok (sz j)) -> scal_bandlimit L J_min 2 true = Ok Ls ->
  fwd64 (pre_lib O) f_scal Ls spin s nside reality = Ok S -> rows S = Ls -> cols S = 2 * Ls - 1 -> numbers2 (bpow radix2 900) S ->
  (forall j, J_min <= j <= J -> let '(Lj, Nj, L0j) := sz j in
     (exists fj, lrd f_wav (j - J_min) = Ok fj /\ wfwd64 (pre_lib O) fj Lj Nj L0j s reality nside = Ok (T j)) /\
     dim0 (T j) = 2 * Nj - 1 /\ dim1 (T j) = Lj /\ dim2 (T j) = 2 * Lj - 1 /\ numbers3 (bpow radix2 900) (T j)) ->
  exists g,
    pre_synthesis_fp fpow fsum O J f_wav f_scal L N J_min (fint 2) spin s nside reality (Some (psi, phi)) (Some q) = inv64 (pre_lib O) g L spin s nside reality /\
    rows g = L /\ cols g = 2 * L - 1 /\
    forall l m, 0 <= l < L -> 0 <= m < 2 * L - 1 ->
      finite64 (get2 g l m) /\
      (Cmod (cval (get2 g l m) - get2 (synthesised L J_min J (vals3 psi) (vals1 phi) sz (fun j => vals3 (T j)) Ls (vals2 S)) l m)%C
       <= IZR (N + J + 8) * bpow radix2 (-52) *
          Cmod (get2 (synthesised L J_min J (abs3 (vals3 psi)) (abs1 (vals1 phi)) sz (fun j => abs3 (vals3 (T j))) Ls (abs2 (vals2 S))) l m) + bpow radix2 (-1060))%R.
Proof.
  intros fexp fpow flg fsum O J f_wav f_scal T S L N J_min spin s nside reality psi phi sz Ls q HL HN HN' Hg Hr Hf HP EJ EF Hfs Eq Esz ELs ES R1 R2 Hn HT.
  destruct (syn_core fexp fpow flg fsum (pre_lib O) J f_wav f_scal T S L N J_min spin s nside reality psi phi sz Ls
    (pre_synthesis_fp fpow fsum O J f_wav f_scal L N J_min (fint 2) spin s nside reality (Some (psi, phi)) (Some q)) HL HN HN' Hg Hr Hf HP EJ EF Hfs Esz ELs ES R1 R2 Hn HT) as (g & E1 & E2 & E3 & E4 & _); [|now exists g].
  intros HJ SZ SL HLs' Szj D0 D1 D2 D3 HL2 HS HT'.
  destruct (top_sizes L N J ltac:(lia) EJ ltac:(lia)) as [TS1 TS2].
  rewrite (gen_full64 fpow L N J_min J (fint 2) (fun j => Lj_of L j 2 true) (fun j => Nj_of L j N 2 true) (fun j => L0_of j 2 true) (Ls_of L J_min 2 true)) in Eq by (auto; lia).
  apply Ok_inj in Eq. subst q. cbn [negb].
  apply (psy64 fpow fsum L N J_min J (fint 2) (fun j => Lj_of L j 2 true) (fun j => Nj_of L j N 2 true) (fun j => L0_of j 2 true) (Ls_of L J_min 2 true)); auto; lia.
Qed.

(*% ** C72: the round trip of the JAX and the precompute transforms *)

(*@ C72_jax_round_trip *)
Lemma rt_jax64 : forall fexp fpow flg fsum O J flm f L N J_min spin s nside reality d B psi phi pa ps qa qs,
  1 <= L <= 2 ^ 52 -> 1 <= N <= L -> N <= 41 -> accurate_loggamma flg -> relative_exp fexp -> accurate_exp fexp -> exact_powers fpow J -> j_max L 2 = Ok J ->
  0 <= J_min < J -> summation fsum -> (0 <= d <= 1)%R -> (bpow radix2 (-900) <= B <= bpow radix2 780)%R -> accurate64 false d (jax_lib O) L spin s nside reality ->
  filters_directional_vectorised_fp fexp fpow flg J L N J_min (fint 2) spin 0 = Ok (psi, phi) ->
  generate_wigner_precomputes_fp fpow J L N J_min (fint 2) s nside false reality = Ok qa -> (pa = None \/ pa = Some qa) ->
  generate_wigner_precomputes_fp fpow J L N J_min (fint 2) s nside true reality = Ok qs -> (ps = None \/ ps = Some qs) ->
  is_harmonic L spin reality (vals2 flm) -> numbers2 B flm -> inv64 (jax_lib O) flm L spin s nside reality = Ok f ->
  exists w sc g,
    jax_analysis_fp fpow O J f L N J_min (fint 2) spin s nside reality (Some (psi, phi)) pa = Ok (w, sc) /\
    jax_synthesis_fp fpow fsum O J w sc L N J_min (fint 2) spin s nside reality (Some (psi, phi)) ps = inv64 (jax_lib O) g L spin s nside reality /\
    harmonic L spin (vals2 g) /\
    forall l q, 0 <= l < L -> 0 <= q < 2 * L - 1 ->
      finite64 (get2 g l q) /\
      (Cmod (cval (get2 g l q) - cval (get2 flm l q))%C
       <= (quad_error 2 300 + bpow radix2 (-32)) * Cmod (cval (get2 flm l q))
          + d * B * (3 * sqrt (IZR (N * (J + 1) * (2 * l + 1))) + 21) + bpow radix2 (-1000))%R.
Proof.
  intros fexp fpow flg fsum O J flm0 f L N J_min spin s nside reality d B psi phi pa ps qa qs HL HN HN' Hg Hr Hf HP EJ HJ Hfs Hd HB HA EF Eqa Hpa Eqs Hps Hh0 Hn0 Ef0.
  pose proof (filt64 fexp fpow flg J L N J_min spin psi phi HL ltac:(lia) Hg Hr Hf HP EJ (or_intror EF)) as HF.
  pose proof (J_le L J HL EJ) as HJ52. destruct (dims L N J_min J spin psi phi HF) as (D0 & D1 & D2 & D3 & _).
  pose proof (szs fpow L N J true HL ltac:(lia) HP) as SZ. pose proof (HLs L J_min true HL) as HLs'. destruct (top_sizes L N J ltac:(lia) EJ ltac:(lia)) as [TS1 TS2].
  assert (SZ' : forall j, J_min <= j <= J -> LN_j_fp fpow L j N (fint 2) true = Ok (Lj_of L j 2 true, Nj_of L j N 2 true, L0_of j 2 true)) by (intros; apply SZ; lia).
  pose proof (proj2 (SZ J_min ltac:(lia))) as SL.
  assert (Szj : forall j, J_min <= j <= J -> 0 <= L0_of j 2 true <= Lj_of L j 2 true /\ 1 <= Lj_of L j 2 true <= L /\ 1 <= Nj_of L j N 2 true <= L).
  { intros j Hj. destruct (Hsz L N J_min J spin true psi phi HL HN HF j Hj) as (Z1 & Z2 & Z3 & Z4). lia. }
  assert (HL2 : 2 <= L) by (destruct (Z.eq_dec L 1) as [->|]; [|lia]; exfalso; destruct j_max_5_2 as (_ & E1' & _); rewrite E1' in EJ; apply Ok_inj in EJ; lia).
  rewrite (gen_wigner64 fpow L N J_min J (fint 2) (fun j => Lj_of L j 2 true) (fun j => Nj_of L j N 2 true) (fun j => L0_of j 2 true)) in Eqa by (auto; lia). apply Ok_inj in Eqa. subst qa.
  rewrite (gen_wigner64 fpow L N J_min J (fint 2) (fun j => Lj_of L j 2 true) (fun j => Nj_of L j N 2 true) (fun j => L0_of j 2 true)) in Eqs by (auto; lia). apply Ok_inj in Eqs. subst qs.
  apply (rt_core fexp fpow flg fsum (jax_lib O) J flm0 f L N J_min spin s nside reality true false d B psi phi (fun a j => wj L (fun j => Lj_of L j 2 true) (fun j => Nj_of L j N 2 true) (fun j => L0_of j 2 true) psi a j)
    _ (fun w sc => jax_synthesis_fp fpow fsum O J w sc L N J_min (fint 2) spin s nside reality (Some (psi, phi)) ps)); auto.
  - intros. apply wavj_same.
  - intros _ Hf0. apply (jan64 fpow L N J_min J (fint 2) (fun j => Lj_of L j 2 true) (fun j => Nj_of L j N 2 true) (fun j => L0_of j 2 true) (Ls_of L J_min 2 true)); auto; lia.
  - intros w sc _ HS HT. apply (jsy64 fpow fsum L N J_min J (fint 2) (fun j => Lj_of L j 2 true) (fun j => Nj_of L j N 2 true) (fun j => L0_of j 2 true) (Ls_of L J_min 2 true)); auto; lia.
Qed.

(*@ C72_precompute_round_trip *)
Lemma rt_pre64 : forall fexp fpow flg fsum O J flm f L N J_min spin s nside reality d B psi phi qa qs,
  1 <= L <= 2 ^ 52 -> 1 <= N <= L -> N <= 41 -> accurate_loggamma flg -> relative_exp fexp -> accurate_exp fexp -> exact_powers fpow J -> j_max L 2 = Ok J ->
  0 <= J_min < J -> summation fsum -> (0 <= d <= 1)%R -> (bpow radix2 (-900) <= B <= bpow radix2 780)%R -> accurate64 false d (pre_lib O) L spin s nside reality ->
  filters_directional_vectorised_fp fexp fpow flg J L N J_min (fint 2) spin 0 = Ok (psi, phi) ->
  generate_full_precomputes_fp fpow J L N J_min (fint 2) s nside false reality false = Ok qa ->
  generate_full_precomputes_fp fpow J L N J_min (fint 2) s nside true reality false = Ok qs ->
  is_harmonic L spin reality (vals2 flm) -> numbers2 B flm -> inv64 (pre_lib O) flm L spin s nside reality = Ok f ->
  exists w sc g,
    pre_analysis_fp fpow O J f L N J_min (fint 2) spin s nside reality (Some (psi, phi)) (Some qa) = Ok (w, sc) /\
    pre_synthesis_fp fpow fsum O J w sc L N J_min (fint 2) spin s nside reality (Some (psi, phi)) (Some qs) = inv64 (pre_lib O) g L spin s nside reality /\
    harmonic L spin (vals2 g) /\
    forall l q, 0 <= l < L -> 0 <= q < 2 * L - 1 ->
      finite64 (get2 g l q) /\
      (Cmod (cval (get2 g l q) - cval (get2 flm l q))%C
       <= (quad_error 2 300 + bpow radix2 (-32)) * Cmod (cval (get2 flm l q))
          + d * B * (3 * sqrt (IZR (N * (J + 1) * (2 * l + 1))) + 21) + bpow radix2 (-1000))%R.
Proof.
  intros fexp fpow flg fsum O J flm0 f L N J_min spin s nside reality d B psi phi qa qs HL HN HN' Hg Hr Hf HP EJ HJ Hfs Hd HB HA EF Eqa Eqs Hh0 Hn0 Ef0.
  pose proof (filt64 fexp fpow flg J L N J_min spin psi phi HL ltac:(lia) Hg Hr Hf HP EJ (or_intror EF)) as HF.
  pose proof (J_le L J HL EJ) as HJ52. destruct (dims L N J_min J spin psi phi HF) as (D0 & D1 & D2 & D3 & _).
  pose proof (szs fpow L N J true HL ltac:(lia) HP) as SZ. pose proof (HLs L J_min true HL) as HLs'. destruct (top_sizes L N J ltac:(lia) EJ ltac:(lia)) as [TS1 TS2].
  assert (SZ' : forall j, J_min <= j <= J -> LN_j_fp fpow L j N (fint 2) true = Ok (Lj_of L j 2 true, Nj_of L j N 2 true, L0_of j 2 true)) by (intros; apply SZ; lia).
  pose proof (proj2 (SZ J_min ltac:(lia))) as SL.
  assert (Szj : forall j, J_min <= j <= J -> 0 <= L0_of j 2 true <= Lj_of L j 2 true /\ 1 <= Lj_of L j 2 true <= L /\ 1 <= Nj_of L j N 2 true <= L).
  { intros j Hj. destruct (Hsz L N J_min J spin true psi phi HL HN HF j Hj) as (Z1 & Z2 & Z3 & Z4). lia. }
  assert (HL2 : 2 <= L) by (destruct (Z.eq_dec L 1) as [->|]; [|lia]; exfalso; destruct j_max_5_2 as (_ & E1' & _); rewrite E1' in EJ; apply Ok_inj in EJ; lia).
  rewrite (gen_full64 fpow L N J_min J (fint 2) (fun j => Lj_of L j 2 true) (fun j => Nj_of L j N 2 true) (fun j => L0_of j 2 true) (Ls_of L J_min 2 true)) in Eqa by (auto; lia). apply Ok_inj in Eqa. subst qa. cbn [negb].
  rewrite (gen_full64 fpow L N J_min J (fint 2) (fun j => Lj_of L j 2 true) (fun j => Nj_of L j N 2 true) (fun j => L0_of j 2 true) (Ls_of L J_min 2 true)) in Eqs by (auto; lia). apply Ok_inj in Eqs. subst qs. cbn [negb].
  apply (rt_core fexp fpow flg fsum (pre_lib O) J flm0 f L N J_min spin s nside reality true false d B psi phi (fun a j => wj L (fun j => Lj_of L j 2 true) (fun j => Nj_of L j N 2 true) (fun j => L0_of j 2 true) psi a j)
    _ (fun w sc => pre_synthesis_fp fpow fsum O J w sc L N J_min (fint 2) spin s nside reality (Some (psi, phi)) (Some (Some (SKern L 0 reality s nside false), Some (SKern (Ls_of L J_min 2 true) 0 reality s nside true), map (wk (fun j => Lj_of L j 2 true) (fun j => Nj_of L j N 2 true) s nside true reality) (zrange J_min J))))); auto.
  - intros. apply wavj_same.
  - intros _ Hf0. apply (pan64 fpow L N J_min J (fint 2) (fun j => Lj_of L j 2 true) (fun j => Nj_of L j N 2 true) (fun j => L0_of j 2 true) (Ls_of L J_min 2 true)); auto; lia.
  - intros w sc _ HS HT. apply (psy64 fpow fsum L N J_min J (fint 2) (fun j => Lj_of L j 2 true) (fun j => Nj_of L j N 2 true) (fun j => L0_of j 2 true) (Ls_of L J_min 2 true)); auto; lia.
Qed.

(*% ** C73: the binary64 transforms of base.py, wavelet.py and wavelet_precompute.py compute the same coefficients *)

(*@ C73_same_analysis_coefficients *)
Lemma agree_an : forall fexp fpow flg O Oj J f flm L N J_min spin s nside reality psi phi sz Ls q p q',
  1 <= L <= 2 ^ 52 -> 1 <= N <= L -> N <= 41 -> accurate_loggamma flg -> relative_exp fexp -> accurate_exp fexp -> exact_powers fpow J -> j_max L 2 = Ok J ->
  filters_directional_vectorised_fp fexp fpow flg J L N J_min (fint 2) spin 0 = Ok (psi, phi) -> sampling_known s nside ->
  generate_wigner_precomputes_fp fpow J L N J_min (fint 2) s nside false reality = Ok q -> (p = None \/ p = Some q) ->
  generate_full_precomputes_fp fpow J L N J_min (fint 2) s nside false reality false = Ok q' ->
  (forall j, LN_j L j N 2 true = Ok (sz j)) -> scal_bandlimit L J_min 2 true = Ok Ls ->
  rows flm = L -> cols flm = 2 * L - 1 ->
  fwd64 O f L spin s nside reality = Ok flm -> fwd64 (jax_lib Oj) f L spin s nside reality = Ok flm -> fwd64 (pre_lib Oj) f L spin s nside reality = Ok flm ->
  exists W W' S,
    analysis_fp fexp fpow flg O J f L N J_min (fint 2) spin 0 s nside reality true
    = (w <- mapM (fun j => let '(Lj, Nj, L0j) := sz j in winv64 O (W j) Lj Nj L0j s reality nside) (zrange J_min (J + 1)) ;;
       sc <- inv64 O S Ls spin s nside reality ;;
       Ok (w, sc)) /\
    jax_analysis_fp fpow Oj J f L N J_min (fint 2) spin s nside reality (Some (psi, phi)) p
    = (w <- mapM (fun j => let '(Lj, Nj, L0j) := sz j in winv64 (jax_lib Oj) (W' j) Lj Nj L0j s reality nside) (zrange J_min (J + 1)) ;;
       sc <- inv64 (jax_lib Oj) S Ls spin s nside reality ;;
       Ok (w, sc)) /\
    pre_analysis_fp fpow Oj J f L N J_min (fint 2) spin s nside reality (Some (psi, phi)) (Some q')
    = (w <- mapM (fun j => let '(Lj, Nj, L0j) := sz j in winv64 (pre_lib Oj) (W' j) Lj Nj L0j s reality nside) (zrange J_min (J + 1)) ;;
       sc <- inv64 (pre_lib Oj) S Ls spin s nside reality ;;
       Ok (w, sc)) /\
    forall j, J_min <= j <= J -> same_array (W' j) (W j).
Proof.
  intros fexp fpow flg O Oj J f flm L N J_min spin s nside reality psi phi sz Ls q p q' HL HN HN' Hg Hr Hf HP EJ EF Hs Eq Hp Eq' Esz ELs R1 R2 Ef Efj Efp.
  pose proof (filt64 fexp fpow flg J L N J_min spin psi phi HL ltac:(lia) Hg Hr Hf HP EJ (or_intror EF)) as HF. pose proof (f_range _ _ _ _ _ _ _ _ HF) as HJ.
  pose proof (J_le L J HL EJ) as HJ52. destruct (dims L N J_min J spin psi phi HF) as (D0 & D1 & D2 & D3 & _).
  rewrite (sz_eq L N 2 true sz ltac:(lra) Esz), (Ls_eq L J_min 2 true Ls ltac:(lra) ELs).
  pose proof (szs fpow L N J true HL ltac:(lia) HP) as SZ. destruct (top_sizes L N J ltac:(lia) EJ ltac:(lia)) as [TS1 TS2].
  assert (SZ' : forall j, J_min <= j <= J -> LN_j_fp fpow L j N (fint 2) true = Ok (Lj_of L j 2 true, Nj_of L j N 2 true, L0_of j 2 true)) by (intros; apply SZ; lia).
  pose proof (proj2 (SZ J_min ltac:(lia))) as SL. pose proof (HLs L J_min true HL) as HLs'.
  assert (Szj : forall j, J_min <= j <= J -> 0 <= L0_of j 2 true <= Lj_of L j 2 true /\ 1 <= Lj_of L j 2 true <= L /\ 1 <= Nj_of L j N 2 true <= L).
  { intros j Hj. destruct (Hsz L N J_min J spin true psi phi HL HN HF j Hj) as (Z1 & Z2 & Z3 & Z4). lia. }
  rewrite (gen_wigner64 fpow L N J_min J (fint 2) (fun j => Lj_of L j 2 true) (fun j => Nj_of L j N 2 true) (fun j => L0_of j 2 true)) in Eq by (auto; lia). apply Ok_inj in Eq. subst q.
  rewrite (gen_full64 fpow L N J_min J (fint 2) (fun j => Lj_of L j 2 true) (fun j => Nj_of L j N 2 true) (fun j => L0_of j 2 true) (Ls_of L J_min 2 true)) in Eq' by (auto; lia). apply Ok_inj in Eq'. subst q'. cbn [negb].
  exists (fun j => wav64 L (Lj_of L j 2 true) (Nj_of L j N 2 true) (L0_of j 2 true) j psi flm),
    (wj L (fun j => Lj_of L j 2 true) (fun j => Nj_of L j N 2 true) (fun j => L0_of j 2 true) psi flm), (sca64 L phi flm (Ls_of L J_min 2 true)). split; [|split; [|split]].
  - rewrite (analysis64_ok fexp fpow flg L N J_min J (fint 2) true (fun j => Lj_of L j 2 true) (fun j => Nj_of L j N 2 true) (fun j => L0_of j 2 true) (Ls_of L J_min 2 true)) with (psi := psi) (phi := phi); auto; try lia.
    + rewrite Ef. reflexivity.
    + eapply known_some. exact Hs.
    + intros a E. assert (a = flm) as -> by congruence. auto.
  - rewrite (jan64 fpow L N J_min J (fint 2) (fun j => Lj_of L j 2 true) (fun j => Nj_of L j N 2 true) (fun j => L0_of j 2 true) (Ls_of L J_min 2 true)); auto; try lia.
    + rewrite Efj. reflexivity.
    + intros a E. cbn [jax_lib fwd64] in Efj. assert (a = flm) as -> by congruence. auto.
  - rewrite (pan64 fpow L N J_min J (fint 2) (fun j => Lj_of L j 2 true) (fun j => Nj_of L j N 2 true) (fun j => L0_of j 2 true) (Ls_of L J_min 2 true)); auto; try lia.
    + rewrite Efp. reflexivity.
    + intros a E. assert (a = flm) as -> by congruence. auto.
  - intros j Hj. apply wavj_array.
Qed.

(*@ C73_same_synthesis_coefficients *)
Lemma agree_sy : forall fexp fpow flg fsum O Oj J f_wav f_scal T S L N J_min spin s nside reality psi phi sz Ls q p q',
  1 <= L <= 2 ^ 52 -> 1 <= N <= L -> N <= 41 -> accurate_loggamma flg -> relative_exp fexp -> accurate_exp fexp -> exact_powers fpow J -> j_max L 2 = Ok J ->
  filters_directional_vectorised_fp fexp fpow flg J L N J_min (fint 2) spin 0 = Ok (psi, phi) ->
  generate_wigner_precomputes_fp fpow J L N J_min (fint 2) s nside true reality = Ok q -> (p = None \/ p = Some q) ->
  generate_full_precomputes_fp fpow J L N J_min (fint 2) s nside true reality false = Ok q' ->
  (forall j, LN_j L j N 2 true = Ok (sz j)) -> scal_bandlimit L J_min 2 true = Ok Ls ->
  wavelet_shape_check_fp fpow J f_wav f_scal L N J_min (fint 2) s nside true = Ok tt ->
  rows S = Ls -> cols S = 2 * Ls - 1 ->
  fwd64 O f_scal Ls spin s nside reality = Ok S -> fwd64 (jax_lib Oj) f_scal Ls spin s nside reality = Ok S -> fwd64 (pre_lib Oj) f_scal Ls spin s nside reality = Ok S ->
  (forall j, J_min <= j <= J -> let '(Lj, Nj, L0j) := sz j in
     dim0 (T j) = 2 * Nj - 1 /\ dim1 (T j) = Lj /\ dim2 (T j) = 2 * Lj - 1 /\
     exists fj, lrd f_wav (j - J_min) = Ok fj /\ wfwd64 O fj Lj Nj L0j s reality nside = Ok (T j) /\
       wfwd64 (jax_lib Oj) fj Lj Nj L0j s reality nside = Ok (T j) /\ wfwd64 (pre_lib Oj) fj Lj Nj L0j s reality nside = Ok (T j)) ->
  exists g,
    synthesis_fp fexp fpow flg fsum O J f_wav f_scal L N J_min (fint 2) spin 0 s nside reality true = inv64 O g L spin s nside reality /\
    jax_synthesis_fp fpow fsum Oj J f_wav f_scal L N J_min (fint 2) spin s nside reality (Some (psi, phi)) p = inv64 (jax_lib Oj) g L spin s nside reality /\
    pre_synthesis_fp fpow fsum Oj J f_wav f_scal L N J_min (fint 2) spin s nside reality (Some (psi, phi)) (Some q') = inv64 (pre_lib Oj) g L spin s nside reality.
Proof.
  intros fexp fpow flg fsum O Oj J f_wav f_scal T S L N J_min spin s nside reality psi phi sz Ls q p q' HL HN HN' Hg Hr Hf HP EJ EF Eq Hp Eq' Esz ELs EC R1 R2 ES ESj ESp HT.
  pose proof (filt64 fexp fpow flg J L N J_min spin psi phi HL ltac:(lia) Hg Hr Hf HP EJ (or_intror EF)) as HF. pose proof (f_range _ _ _ _ _ _ _ _ HF) as HJ.
  pose proof (J_le L J HL EJ) as HJ52. destruct (dims L N J_min J spin psi phi HF) as (D0 & D1 & D2 & D3 & _).
  rewrite (sz_eq L N 2 true sz ltac:(lra) Esz) in *. rewrite (Ls_eq L J_min 2 true Ls ltac:(lra) ELs) in *. clear Esz ELs sz Ls.
  pose proof (szs fpow L N J true HL ltac:(lia) HP) as SZ. destruct (top_sizes L N J ltac:(lia) EJ ltac:(lia)) as [TS1 TS2].
  assert (SZ' : forall j, J_min <= j <= J -> LN_j_fp fpow L j N (fint 2) true = Ok (Lj_of L j 2 true, Nj_of L j N 2 true, L0_of j 2 true)) by (intros; apply SZ; lia).
  pose proof (proj2 (SZ J_min ltac:(lia))) as SL. pose proof (HLs L J_min true HL) as HLs'.
  assert (Szj : forall j, J_min <= j <= J -> 0 <= L0_of j 2 true <= Lj_of L j 2 true /\ 1 <= Lj_of L j 2 true <= L /\ 1 <= Nj_of L j N 2 true <= L).
  { intros j Hj. destruct (Hsz L N J_min J spin true psi phi HL HN HF j Hj) as (Z1 & Z2 & Z3 & Z4). lia. }
  assert (HL2 : 2 <= L) by (destruct (Z.eq_dec L 1) as [->|]; [|lia]; exfalso; destruct j_max_5_2 as (_ & E1' & _); rewrite E1' in EJ; apply Ok_inj in EJ; lia).
  rewrite (gen_wigner64 fpow L N J_min J (fint 2) (fun j => Lj_of L j 2 true) (fun j => Nj_of L j N 2 true) (fun j => L0_of j 2 true)) in Eq by (auto; lia). apply Ok_inj in Eq. subst q.
  rewrite (gen_full64 fpow L N J_min J (fint 2) (fun j => Lj_of L j 2 true) (fun j => Nj_of L j N 2 true) (fun j => L0_of j 2 true) (Ls_of L J_min 2 true)) in Eq' by (auto; lia). apply Ok_inj in Eq'. subst q'. cbn [negb].
  unfold szf in HT.
  exists (syn64 fsum L J_min J (fun j => Lj_of L j 2 true) (fun j => Nj_of L j N 2 true) (fun j => L0_of j 2 true) (Ls_of L J_min 2 true) psi phi (map T (zrange J_min (J + 1))) S). split; [|split].
  - rewrite (synthesis64_ok fexp fpow flg fsum L N J_min J (fint 2) true (fun j => Lj_of L j 2 true) (fun j => Nj_of L j N 2 true) (fun j => L0_of j 2 true) (Ls_of L J_min 2 true)) with (psi := psi) (phi := phi); auto; try lia.
    + rewrite EC. cbn [bind]. rewrite ES. cbn [bind]. rewrite (mapM_ok _ T); [reflexivity|]. intros j Hj. apply In_zrange in Hj.
      destruct (HT j ltac:(lia)) as (_ & _ & _ & fj & E1 & E2 & _). rewrite E1. cbn [bind]. exact E2.
    + intros a E. assert (a = S) as -> by congruence. auto.
    + intros j fj T' Hj E1 E2. destruct (HT j Hj) as (A1 & A2 & A3 & fj' & E1' & E2' & _). assert (fj' = fj) as -> by congruence. assert (T' = T j) as -> by congruence. auto.
  - rewrite (jsy64 fpow fsum L N J_min J (fint 2) (fun j => Lj_of L j 2 true) (fun j => Nj_of L j N 2 true) (fun j => L0_of j 2 true) (Ls_of L J_min 2 true)); auto; try lia.
    + rewrite ESj. cbn [bind]. rewrite (mapM_ok _ T); [reflexivity|]. intros j Hj. apply In_zrange in Hj.
      destruct (HT j ltac:(lia)) as (_ & _ & _ & fj & E1 & _ & E2 & _). rewrite E1. cbn [bind]. exact E2.
    + intros a E. assert (a = S) as -> by congruence. auto.
    + intros j fj T' Hj E1 E2. destruct (HT j Hj) as (A1 & A2 & A3 & fj' & E1' & _ & E2' & _). assert (fj' = fj) as -> by congruence. assert (T' = T j) as -> by congruence. auto.
  - rewrite (psy64 fpow fsum L N J_min J (fint 2) (fun j => Lj_of L j 2 true) (fun j => Nj_of L j N 2 true) (fun j => L0_of j 2 true) (Ls_of L J_min 2 true)); auto; try lia.
    + rewrite ESp. cbn [bind]. rewrite (mapM_ok _ T); [reflexivity|]. intros j Hj. apply In_zrange in Hj.
      destruct (HT j ltac:(lia)) as (_ & _ & _ & fj & E1 & _ & _ & E2). rewrite E1. cbn [bind]. exact E2.
    + intros a E. assert (a = S) as -> by congruence. auto.
    + intros j fj T' Hj E1 E2. destruct (HT j Hj) as (A1 & A2 & A3 & fj' & E1' & _ & _ & E2'). assert (fj' = fj) as -> by congruence. assert (T' = T j) as -> by congruence. auto.
Qed.

(** a library for the examples *)
Definition cpix : f64 := fsqrt (fdiv (fint 1) (fmul (fint 4) fpi)).
Definition jstore : jax64 := 
  let fw f L spin s ns r := if L =? 1 then Ok (mk2 1 1 (fun l q => cmul (ndat64 f [l; q]) (creal (fdiv (fint 1) cpix)))) else fwd64 store f L spin s ns r in
  Jax64
    (fun f L spin ns s r => fw f L spin s ns r)
    (fun a L spin ns s r => inv64 store a L spin s ns r)
    (fun f L N ns s r _ L0 => wfwd64 store f L N L0 s r ns)
    (fun a L N ns s r _ L0 => winv64 store a L N L0 s r ns)
    (fun f _ L s r spin ns => fw f L spin s ns r)
    (fun a _ L s r spin ns => inv64 store a L spin s ns r)
    (fun f _ L N s r ns => wfwd64 store f L N 0 s r ns)
    (fun a _ L N s r ns => winv64 store a L N 0 s r ns).
Definition parts (x : f64) : bool * positive * Z := match x with B754_finite sg m e _ => (sg, m, e) | _ => (true, 1%positive, 0) end.
Lemma parts_val x m e : parts x = (false, m, e) -> is_finite x = true /\ B2R x = (IZR (Zpos m) * bpow radix2 e)%R.
Proof.
  destruct x as [sg|sg| |sg m' e' H]; cbn [parts]; intros E; try discriminate. injection E as -> -> ->. split; [reflexivity|]. cbn [B2R cond_Zopp]. reflexivity.
Qed.
Lemma cpix_val : is_finite cpix = true /\ B2R cpix = (5081767996463981 / 18014398509481984)%R.
Proof.
  destruct (parts_val cpix 5081767996463981 (-54)) as [A B]; [vm_compute; reflexivity|]. split; [exact A|]. rewrite B.
  change (bpow radix2 (-54)) with (/ 18014398509481984)%R. field.
Qed.
Lemma cpix_inv : is_finite (fdiv (fint 1) cpix) = true /\ B2R (fdiv (fint 1) cpix) = (7982422502469483 / 2251799813685248)%R.
Proof.
  destruct (parts_val (fdiv (fint 1) cpix) 7982422502469483 (-51)) as [A B]; [vm_compute; reflexivity|]. split; [exact A|]. rewrite B.
  change (bpow radix2 (-51)) with (/ 2251799813685248)%R. field.
Qed.
Lemma pixel_err' x y B : finite64 x -> (Cmod (cval x) <= B)%R -> (bpow radix2 (-900) <= B <= bpow radix2 800)%R ->
  finite64 y -> cval y = cval (cmul x (creal cpix)) ->
  let z := cmul y (creal (fdiv (fint 1) cpix)) in finite64 z /\ (Cmod (cval z - cval x)%C <= bpow radix2 (-50) * B)%R.
Proof.
  intros Fx Hx HB Fy' Vy. destruct cpix_val as [F1 V1]. destruct cpix_inv as [F2 V2].
  assert (M1 : Cmod (cval (creal cpix)) = (5081767996463981 / 18014398509481984)%R) by (rewrite cval_creal, Cmod_R, V1, Rabs_pos_eq; lra).
  assert (M2 : Cmod (cval (creal (fdiv (fint 1) cpix))) = (7982422502469483 / 2251799813685248)%R) by (rewrite cval_creal, Cmod_R, V2, Rabs_pos_eq; lra).
  assert (B800 : (bpow radix2 800 * 1024 <= bpow radix2 1000)%R) by (change 1024%R with (bpow radix2 10); rewrite <- bpow_plus; apply bpow_le; lia).
  assert (TE : (1024 * 1024 * 1024 * 1024 * 1024 * 1024 * eta <= bpow radix2 (-900))%R).
  { unfold eta. replace (1024 * 1024 * 1024 * 1024 * 1024 * 1024)%R with (bpow radix2 60) by (change (bpow radix2 60) with 1152921504606846976%R; lra). rewrite <- bpow_plus. apply bpow_le. lia. }
  assert (E0 : (0 <= eta)%R) by apply bpow_ge_0. pose proof (Cmod_ge_0 (cval x)) as X0. pose proof (bpow_ge_0 radix2 (-900)) as N0.
  set (X := Cmod (cval x)) in *.
  destruct (cmul_val x (creal cpix) Fx (fin_creal _ F1)) as (_ & _ & Ey); [fold X; rewrite M1; lra|]. fold X in Ey. rewrite M1 in Ey.
  rewrite <- Vy in Ey.
  assert (Y : (Cmod (cval y) <= 29 / 100 * B)%R).
  { pose proof (add_up _ _ _ Ey) as H. rewrite Cmod_mult, M1 in H. fold X in H. unfold eps in H. lra. }
  pose proof (Cmod_ge_0 (cval y)) as Y0. set (Y1 := Cmod (cval y)) in *.
  destruct (cmul_val y (creal (fdiv (fint 1) cpix)) Fy' (fin_creal _ F2)) as (Fz & _ & Ez); [fold Y1; rewrite M2; lra|]. fold Y1 in Ez. rewrite M2 in Ez.
  cbv zeta. split; [exact Fz|]. set (z := cmul y (creal (fdiv (fint 1) cpix))) in *.
  replace (cval z - cval x)%C with ((cval z - cval y * cval (creal (fdiv (fint 1) cpix))) + ((cval y - cval x * cval (creal cpix)) * cval (creal (fdiv (fint 1) cpix)) + cval x * (cval (creal cpix) * cval (creal (fdiv (fint 1) cpix)) - RtoC 1)))%C by ring.
  eapply Rle_trans; [apply Cmod_triangle|]. eapply Rle_trans; [apply Rplus_le_compat_l, Cmod_triangle|]. rewrite !Cmod_mult. fold X. rewrite M2.
  assert (K : (Cmod (cval (creal cpix) * cval (creal (fdiv (fint 1) cpix)) - RtoC 1)%C <= eps)%R).
  { rewrite !cval_creal, V1, V2. rewrite <- RtoC_mult, <- RtoC_minus, Cmod_R. unfold eps. apply Rabs_le. lra. }
  assert (KX : (X * Cmod (cval (creal cpix) * cval (creal (fdiv (fint 1) cpix)) - RtoC 1)%C <= X * eps)%R) by (apply Rmult_le_compat_l; lra).
  change (bpow radix2 (-50)) with (/ 1125899906842624)%R. unfold eps in *. lra.
Qed.
Lemma pixel_err x B : finite64 x -> (Cmod (cval x) <= B)%R -> (bpow radix2 (-900) <= B <= bpow radix2 800)%R ->
  let z := cmul (cmul x (creal cpix)) (creal (fdiv (fint 1) cpix)) in finite64 z /\ (Cmod (cval z - cval x)%C <= bpow radix2 (-50) * B)%R.
Proof.
  intros Fx Hx HB. apply pixel_err'; auto. destruct cpix_val as [F1 V1].
  assert (M1 : Cmod (cval (creal cpix)) = (5081767996463981 / 18014398509481984)%R) by (rewrite cval_creal, Cmod_R, V1, Rabs_pos_eq; lra).
  destruct (cmul_val x (creal cpix) Fx (fin_creal _ F1)) as (Fy & _); [|exact Fy]. rewrite M1.
  assert (B800 : (bpow radix2 800 * 1024 <= bpow radix2 1000)%R) by (change 1024%R with (bpow radix2 10); rewrite <- bpow_plus; apply bpow_le; lia).
  pose proof (Cmod_ge_0 (cval x)). lra.
Qed.
Lemma store_mono d L spin : (0 <= d)%R -> (forall M, 1 <= M <= L -> inverts2 d (is_harmonic M spin false) (fun _ => True) (fun a => inv64 store a M spin MW None false) (fun f => fwd64 store f M spin MW None false)) /\
  (forall M N L0, 1 <= M <= L -> 1 <= N <= M + 1 -> 0 <= L0 <= M ->
     inverts3 d (is_wigner M N L0 false) (fun _ => True) (fun a => winv64 store a M N L0 MW false None) (fun f => wfwd64 store f M N L0 MW false None)).
Proof.
  intros Hd. destruct (store_accurate L spin) as [A1 A2]. split.
  - intros M HM a B HB Ha Hn. destruct (A1 M HM a B HB Ha Hn) as (f & b & E1 & _ & E2 & E3 & N1 & N2 & N3). exists f, b. split; [exact E1|]. split; [exact I|]. split; [exact E2|]. split; [exact E3|].
    split; [exact N1|]. split; [exact N2|]. intros i j Hi Hj. destruct (N3 i j Hi Hj) as [F E]. split; [exact F|]. assert (0 <= d * B)%R by (apply Rmult_le_pos; [lra|]; pose proof (bpow_ge_0 radix2 (-900)); lra). lra.
  - intros M N L0 HM HN HL0 a B HB Ha Hn. destruct (A2 M N L0 HM HN HL0 a B HB Ha Hn) as (f & b & E1 & _ & E2 & E3 & N1 & N2 & N3 & N4). exists f, b. split; [exact E1|]. split; [exact I|]. split; [exact E2|]. split; [exact E3|].
    split; [exact N1|]. split; [exact N2|]. split; [exact N3|]. intros i j k Hi Hj Hk. destruct (N4 i j k Hi Hj Hk) as [F E]. split; [exact F|]. assert (0 <= d * B)%R by (apply Rmult_le_pos; [lra|]; pose proof (bpow_ge_0 radix2 (-900)); lra). lra.
Qed.
Lemma one_harm (b : arr2 c64) : rows b = 1 -> cols b = 1 -> is_harmonic 1 0 false (vals2 b).
Proof.
  intros R C. split; [|discriminate]. unfold vals2. rewrite R, C. split; [reflexivity|]. split; [reflexivity|]. intros l m Hne. cbn [get2 mk2] in Hne.
  destruct (inb 1 l && inb 1 (1 - 1 + m)) eqn:E; [|exfalso; apply Hne; reflexivity]. apply andb_prop in E as [I1 I2]. apply inb_true in I1, I2. lia.
Qed.
Lemma jstore_accurate L : accurate64 false (bpow radix2 (-50)) (jax_lib jstore) L 0 MW None false /\ accurate64 false (bpow radix2 (-50)) (pre_lib jstore) L 0 MW None false.
Proof.
  destruct (store_mono (bpow radix2 (-50)) L 0 (bpow_ge_0 _ _)) as [A1 A2].
  assert (K : forall a B, (bpow radix2 (-900) <= B <= bpow radix2 800)%R -> is_harmonic 1 0 false (vals2 a) -> numbers2 B a ->
    let b := mk2 1 1 (fun l q => cmul (ndat64 (one_pixel64 a) [l; q]) (creal (fdiv (fint 1) cpix))) in is_harmonic 1 0 false (vals2 b) /\ near2 0 (bpow radix2 (-50) * B) b (vals2 a)).
  { intros a B HB ((R1 & R2 & _) & _) Hn. cbn [vals2 rows cols mk2] in R1, R2. cbv zeta. split; [apply one_harm; reflexivity|].
    unfold near2. cbn [vals2 rows cols mk2]. rewrite R1, R2. split; [reflexivity|]. split; [reflexivity|]. intros i j Hi Hj. rewrite get2_mk by lia. rewrite get2_vals by lia.
    change (ndat64 (one_pixel64 a) [i; j]) with (get2 (map2 (fun x => cmul x (creal cpix)) a) i j). unfold map2. rewrite get2_mk by lia.
    destruct (Hn i j ltac:(lia) ltac:(lia)) as [F E]. destruct (pixel_err (get2 a i j) B F E HB) as [G1 G2]. split; [exact G1|lra]. }
  split; split.
  - intros M HM a B HB Ha Hn. cbn [jax_lib jstore inv64 fwd64 jf64 ji64]. destruct (Z.eqb_spec M 1) as [->|Hne].
    + destruct (K a B HB Ha Hn) as [K1 K2]. eexists. eexists. split; [reflexivity|]. split; [discriminate|]. split; [reflexivity|]. split; [exact K1|exact K2].
    + destruct (A1 M HM a B HB Ha Hn) as (f & b & E1 & _ & E2). exists f, b. split; [exact E1|]. split; [discriminate|]. exact E2.
  - intros M N L0 HM HN HL0 a B HB Ha Hn. destruct (A2 M N L0 HM HN HL0 a B HB Ha Hn) as (f & b & E1 & _ & E2). exists f, b. split; [exact E1|]. split; [discriminate|]. exact E2.
  - intros M HM a B HB Ha Hn. cbn [pre_lib jstore inv64 fwd64 pf64 pi64]. destruct (Z.eqb_spec M 1) as [->|Hne].
    + destruct (K a B HB Ha Hn) as [K1 K2]. eexists. eexists. split; [reflexivity|]. split; [discriminate|]. split; [reflexivity|]. split; [exact K1|exact K2].
    + destruct (A1 M HM a B HB Ha Hn) as (f & b & E1 & _ & E2). exists f, b. split; [exact E1|]. split; [discriminate|]. exact E2.
  - intros M N L0 HM HN HL0 a B HB Ha Hn. destruct (A2 M N L0 HM HN HL0 a B HB Ha Hn) as (f & b & E1 & _ & E2). exists f, b. split; [exact E1|]. split; [discriminate|]. exact E2.
Qed.

Lemma sz5 : (forall j, LN_j 5 j 3 2 true = Ok (szf 5 3 2 true j)) /\ scal_bandlimit 5 1 2 true = Ok 2.
Proof.
  split; [intros j; apply (LN_j_ok 5 j 3 2 true); lra|]. rewrite scal_bandlimit_ok by lra. f_equal. unfold Ls_of. 
  replace (powerRZ 2 1) with (IZR 2) by (simpl; lra). rewrite rceil_IZR. reflexivity.
Qed.
Lemma ex_all : exists fexp fpow flg fsum O Oj psi phi qa ra qs rs f flm w sc T S,
  accurate_loggamma flg /\ relative_exp fexp /\ accurate_exp fexp /\ exact_powers fpow 3 /\ j_max 5 2 = Ok 3 /\ summation fsum /\
  filters_directional_vectorised_fp fexp fpow flg 3 5 3 1 (fint 2) 0 0 = Ok (psi, phi) /\
  generate_wigner_precomputes_fp fpow 3 5 3 1 (fint 2) MW None false false = Ok qa /\ generate_full_precomputes_fp fpow 3 5 3 1 (fint 2) MW None false false false = Ok ra /\
  generate_wigner_precomputes_fp fpow 3 5 3 1 (fint 2) MW None true false = Ok qs /\ generate_full_precomputes_fp fpow 3 5 3 1 (fint 2) MW None true false false = Ok rs /\
  (fwd64 O f 5 0 MW None false = Ok flm /\ fwd64 (jax_lib Oj) f 5 0 MW None false = Ok flm /\ fwd64 (pre_lib Oj) f 5 0 MW None false = Ok flm /\
   rows flm = 5 /\ cols flm = 9 /\ numbers2 (bpow radix2 900) flm /\ cval (get2 flm 2 5) = RtoC 1) /\
  wavelet_shape_check_fp fpow 3 w sc 5 3 1 (fint 2) MW None true = Ok tt /\
  (fwd64 O sc 2 0 MW None false = Ok S /\ fwd64 (jax_lib Oj) sc 2 0 MW None false = Ok S /\ fwd64 (pre_lib Oj) sc 2 0 MW None false = Ok S /\
   rows S = 2 /\ cols S = 3 /\ numbers2 (bpow radix2 900) S /\ cval (get2 S 1 2) = RtoC 1) /\
  forall j, 1 <= j <= 3 -> let '(Lj, Nj, L0j) := szf 5 3 2 true j in
    (exists fj, lrd w (j - 1) = Ok fj /\ wfwd64 O fj Lj Nj L0j MW false None = Ok (T j) /\
      wfwd64 (jax_lib Oj) fj Lj Nj L0j MW false None = Ok (T j) /\ wfwd64 (pre_lib Oj) fj Lj Nj L0j MW false None = Ok (T j)) /\
    dim0 (T j) = 2 * Nj - 1 /\ dim1 (T j) = Lj /\ dim2 (T j) = 2 * Lj - 1 /\ numbers3 (bpow radix2 900) (T j) /\ cval (get3 (T j) 0 0 0) = RtoC 1.
Proof.
  destruct j_max_5_2 as (EJ & _). pose proof (pow2_exact_powers 3 ltac:(lia)) as HP. destruct sz5 as [SZ SL].
  destruct (fp2_dirf_total near_exp pow2 near_lg 3 5 3 1 0 0 ltac:(lia) ltac:(left; lia) ltac:(lia) HP) as [_ ([psi phi] & E2)].
  pose proof (filt64 near_exp pow2 near_lg 3 5 3 1 0 psi phi ltac:(lia) ltac:(lia) near_loggamma near_relative near_accurate HP EJ (or_intror E2)) as HF.
  pose proof (szs pow2 5 3 3 true ltac:(lia) ltac:(lia) HP) as SZ2. pose proof (Ls_eq 5 1 2 true 2 ltac:(lra) SL) as EL.
  assert (Szj : forall j, 1 <= j <= 3 -> 0 <= L0_of j 2 true <= Lj_of 5 j 2 true /\ 1 <= Lj_of 5 j 2 true <= 5 /\ 1 <= Nj_of 5 j 3 2 true <= 5).
  { intros j Hj. destruct (Hsz 5 3 1 3 0 true psi phi ltac:(lia) ltac:(lia) HF j Hj) as (Z1 & Z2 & Z3 & Z4). lia. }
  assert (B1 : (1 <= bpow radix2 900)%R) by (change 1%R with (bpow radix2 0); apply bpow_le; lia).
  set (f := Nd64 [5; 9] (fun _ => creal (fint 1))). set (a := mk2 5 (2 * 5 - 1) (fun l q => ndat64 f [l; q])).
  set (y := fun j => Nd64 [2 * Nj_of 5 j 3 2 true - 1; Lj_of 5 j 2 true; 2 * Lj_of 5 j 2 true - 1] (fun _ => creal (fint 1))).
  set (t := fun j => mk3 (2 * Nj_of 5 j 3 2 true - 1) (Lj_of 5 j 2 true) (2 * Lj_of 5 j 2 true - 1) (fun n l q => ndat64 (y j) [n; l; q])).
  set (sc := Nd64 [2; 3] (fun _ => creal (fint 1))). set (b := mk2 2 (2 * 2 - 1) (fun l q => ndat64 sc [l; q])).
  assert (V1 : cval (creal (fint 1)) = RtoC 1) by (rewrite cval_creal, fint_B2R by lia; reflexivity).
  assert (W1 : finite64 (creal (fint 1)) /\ (Cmod (cval (creal (fint 1))) <= bpow radix2 900)%R) by (split; [apply fin_creal, fint_fin; lia|rewrite V1, Cmod_1; exact B1]).
  assert (NA : numbers2 (bpow radix2 900) a) by (intros i j Hi Hj; change (rows a) with 5 in Hi; change (cols a) with 9 in Hj; unfold a; rewrite get2_mk by lia; exact W1).
  assert (NB : numbers2 (bpow radix2 900) b) by (intros i j Hi Hj; change (rows b) with 2 in Hi; change (cols b) with 3 in Hj; unfold b; rewrite get2_mk by lia; exact W1).
  assert (GW : forall fw, generate_wigner_precomputes_fp pow2 3 5 3 1 (fint 2) MW None fw false = Ok (map (rk (fun j => Lj_of 5 j 2 true) (fun j => Nj_of 5 j 3 2 true) (fun j => L0_of j 2 true) MW None fw false) (zrange 1 4))).
  { intros fw. apply (gen_wigner64 pow2 5 3 1 3 (fint 2)); [lia|]. intros; apply SZ2; lia. }
  assert (GF : forall fw, generate_full_precomputes_fp pow2 3 5 3 1 (fint 2) MW None fw false false
     = Ok (Some (SKern 5 0 false MW None (negb fw)), Some (SKern 2 0 false MW None fw), map (wk (fun j => Lj_of 5 j 2 true) (fun j => Nj_of 5 j 3 2 true) MW None fw false) (zrange 1 3))).
  { intros fw. apply (gen_full64 pow2 5 3 1 3 (fint 2) _ _ (fun j => L0_of j 2 true) 2); [lia| |].
    - intros; apply SZ2; lia.
    - rewrite EL. apply SZ2. lia. }
  exists near_exp, pow2, near_lg, (fun _ _ xs => fold_right fadd (fint 0) xs), store, jstore, psi, phi. do 4 eexists. exists f, a, [y 1; y 2; y 3], sc, t, b.
  split; [apply near_loggamma|]. split; [apply near_relative|]. split; [apply near_accurate|]. split; [exact HP|]. split; [exact EJ|]. split; [apply right_summation|]. split; [exact E2|].
  split; [apply GW|]. split; [apply GF|]. split; [apply GW|]. split; [apply GF|].
  split; [|split; [|split]].
  - split; [reflexivity|]. split; [reflexivity|]. split; [reflexivity|]. split; [reflexivity|]. split; [reflexivity|]. split; [exact NA|]. unfold a. rewrite get2_mk by lia. exact V1.
  - apply (chk64 pow2 3 [y 1; y 2; y 3] sc 5 3 1 MW None true (szf 5 3 2 true) 2); auto; try lia.
    + exact I.
    + split; [reflexivity|]. split; [reflexivity|]. intros j fj Hj E. unfold szf. assert (j = 1 \/ j = 2 \/ j = 3) as [->|[->| ->]] by lia; apply Ok_inj in E; subst fj; reflexivity.
  - split; [reflexivity|]. split; [reflexivity|]. split; [reflexivity|]. split; [reflexivity|]. split; [reflexivity|]. split; [exact NB|]. unfold b. rewrite get2_mk by lia. exact V1.
  - intros j Hj. unfold szf. destruct (Szj j Hj) as (Z1 & Z2 & Z3). split.
    { exists (y j). split; [assert (j = 1 \/ j = 2 \/ j = 3) as [->|[->| ->]] by lia; reflexivity|]. split; [reflexivity|]. split; reflexivity. }
    split; [reflexivity|]. split; [reflexivity|]. split; [reflexivity|]. split; [|unfold t; rewrite get3_mk by lia; exact V1].
    intros i k l Hi Hk Hl. cbn [t dim0 dim1 dim2 mk3] in Hi, Hk, Hl. unfold t. rewrite get3_mk by lia. exact W1.
Qed.

(*% L = 5, N = 3, scales 1 to 3: every hypothesis of the theorems of C71 is met, with coefficients 1 *)
(*@E C71_example *)
Lemma ex_c71 : exists fexp fpow flg fsum O psi phi sz qa ra qs rs f flm w sc T S,
  accurate_loggamma flg /\ relative_exp fexp /\ accurate_exp fexp /\ exact_powers fpow 3 /\ j_max 5 2 = Ok 3 /\ summation fsum /\
  filters_directional_vectorised_fp fexp fpow flg 3 5 3 1 (fint 2) 0 0 = Ok (psi, phi) /\
  (forall j, LN_j 5 j 3 2 true = Ok (sz j)) /\ scal_bandlimit 5 1 2 true = Ok 2 /\
  generate_wigner_precomputes_fp fpow 3 5 3 1 (fint 2) MW None false false = Ok qa /\ generate_full_precomputes_fp fpow 3 5 3 1 (fint 2) MW None false false false = Ok ra /\
  generate_wigner_precomputes_fp fpow 3 5 3 1 (fint 2) MW None true false = Ok qs /\ generate_full_precomputes_fp fpow 3 5 3 1 (fint 2) MW None true false false = Ok rs /\
  (jf64 O f 5 0 None MW false = Ok flm /\ fwd64 (pre_lib O) f 5 0 MW None false = Ok flm /\
   rows flm = 5 /\ cols flm = 9 /\ numbers2 (bpow radix2 900) flm /\ cval (get2 flm 2 5) = RtoC 1) /\
  (fwd64 (jax_lib O) sc 2 0 MW None false = Ok S /\ fwd64 (pre_lib O) sc 2 0 MW None false = Ok S /\
   rows S = 2 /\ cols S = 3 /\ numbers2 (bpow radix2 900) S /\ cval (get2 S 1 2) = RtoC 1) /\
  forall j, 1 <= j <= 3 -> let '(Lj, Nj, L0j) := sz j in
    (exists fj, lrd w (j - 1) = Ok fj /\
      wfwd64 (jax_lib O) fj Lj Nj L0j MW false None = Ok (T j) /\ wfwd64 (pre_lib O) fj Lj Nj L0j MW false None = Ok (T j)) /\
    dim0 (T j) = 2 * Nj - 1 /\ dim1 (T j) = Lj /\ dim2 (T j) = 2 * Lj - 1 /\ numbers3 (bpow radix2 900) (T j) /\ cval (get3 (T j) 0 0 0) = RtoC 1.
Proof.
  destruct ex_all as (fexp & fpow & flg & fsum & O & Oj & psi & phi & qa & ra & qs & rs & f & flm & w & sc & T & S & H1 & H2 & H3 & H4 & H5 & H6 & H7 & H8 & H9 & H10 & H11 & H12 & H13 & H14 & H15).
  destruct sz5 as [SZ SL]. exists fexp, fpow, flg, fsum, Oj, psi, phi, (szf 5 3 2 true), qa, ra, qs, rs, f, flm, w, sc, T, S.
  do 13 (split; [assumption|]). split; [destruct H12 as (_ & X); exact X|]. split; [destruct H14 as (_ & X); exact X|].
  intros j Hj. specialize (H15 j Hj). unfold szf in *. destruct H15 as ((fj & E1 & _ & E2 & E3) & X). split; [exists fj; auto|exact X].
Qed.

(*% L = 5, N = 3, scales 1 to 3: a library and transforms accurate to 2^-50 meet all the hypotheses, and
    the coefficients of a signal whose coefficients are 1 come back within 1/100 *)
(*@E C72_example *)
Lemma ex_c72 : exists fexp fpow flg fsum O flm f psi phi qa ra qs rs w sc g w' sc' g',
  accurate_loggamma flg /\ relative_exp fexp /\ accurate_exp fexp /\ exact_powers fpow 3 /\ j_max 5 2 = Ok 3 /\ summation fsum /\
  accurate64 false (bpow radix2 (-50)) (jax_lib O) 5 0 MW None false /\ accurate64 false (bpow radix2 (-50)) (pre_lib O) 5 0 MW None false /\
  filters_directional_vectorised_fp fexp fpow flg 3 5 3 1 (fint 2) 0 0 = Ok (psi, phi) /\
  generate_wigner_precomputes_fp fpow 3 5 3 1 (fint 2) MW None false false = Ok qa /\ generate_full_precomputes_fp fpow 3 5 3 1 (fint 2) MW None false false false = Ok ra /\
  generate_wigner_precomputes_fp fpow 3 5 3 1 (fint 2) MW None true false = Ok qs /\ generate_full_precomputes_fp fpow 3 5 3 1 (fint 2) MW None true false false = Ok rs /\
  is_harmonic 5 0 false (vals2 flm) /\ numbers2 1 flm /\ inv64 (jax_lib O) flm 5 0 MW None false = Ok f /\ inv64 (pre_lib O) flm 5 0 MW None false = Ok f /\
  jax_analysis_fp fpow O 3 f 5 3 1 (fint 2) 0 MW None false (Some (psi, phi)) (Some qa) = Ok (w, sc) /\
  jax_synthesis_fp fpow fsum O 3 w sc 5 3 1 (fint 2) 0 MW None false (Some (psi, phi)) (Some qs) = inv64 (jax_lib O) g 5 0 MW None false /\
  pre_analysis_fp fpow O 3 f 5 3 1 (fint 2) 0 MW None false (Some (psi, phi)) (Some ra) = Ok (w', sc') /\
  pre_synthesis_fp fpow fsum O 3 w' sc' 5 3 1 (fint 2) 0 MW None false (Some (psi, phi)) (Some rs) = inv64 (pre_lib O) g' 5 0 MW None false /\
  cval (get2 flm 2 5) = RtoC 1 /\ (Cmod (cval (get2 g 2 5) - RtoC 1)%C <= 1 / 100)%R /\ (Cmod (cval (get2 g' 2 5) - RtoC 1)%C <= 1 / 100)%R.
Proof.
  destruct j_max_5_2 as (EJ & _). pose proof (pow2_exact_powers 3 ltac:(lia)) as HP.
  assert (HH : is_harmonic 5 0 false (vals2 ones)).
  { split; [|discriminate]. split; [reflexivity|]. split; [reflexivity|]. intros l m Hne. unfold vals2 in Hne. cbn [get2 mk2] in Hne. change (rows ones) with 5 in Hne. change (cols ones) with 9 in Hne.
    destruct (inb 5 l && inb 9 (5 - 1 + m)) eqn:E; [|exfalso; apply Hne; reflexivity]. apply andb_prop in E as [I1 I2]. apply inb_true in I1, I2.
    rewrite (proj2 (ones_get l (5 - 1 + m) I1 I2)) in Hne. destruct ((1 <=? l) && (Z.abs (5 - 1 + m - 4) <=? l)) eqn:E; [|exfalso; apply Hne; reflexivity].
    apply andb_prop in E as [E1 E2]. apply Z.leb_le in E1, E2. replace (5 - 1 + m - 4) with m in E2 by lia. lia. }
  assert (NN : numbers2 1 ones).
  { intros i j Hi Hj. destruct (ones_get i j Hi Hj) as [F ->]. split; [exact F|]. destruct ((1 <=? i) && (Z.abs (j - 4) <=? i)); [rewrite Cmod_1|rewrite Cmod_0]; lra. }
  assert (B1 : (bpow radix2 (-900) <= 1 <= bpow radix2 780)%R) by (change 1%R with (bpow radix2 0); split; apply bpow_le; lia).
  destruct (fp2_dirf_total near_exp pow2 near_lg 3 5 3 1 0 0 ltac:(lia) ltac:(left; lia) ltac:(lia) HP) as [_ ([psi phi] & E2)].
  pose proof (szs pow2 5 3 3 true ltac:(lia) ltac:(lia) HP) as SZ2.
  assert (GW : forall fw, exists q, generate_wigner_precomputes_fp pow2 3 5 3 1 (fint 2) MW None fw false = Ok q).
  { intros fw. eexists. apply (gen_wigner64 pow2 5 3 1 3 (fint 2) (fun j => Lj_of 5 j 2 true) (fun j => Nj_of 5 j 3 2 true) (fun j => L0_of j 2 true)); [lia|]. intros; apply SZ2; lia. }
  assert (GF : forall fw, exists q, generate_full_precomputes_fp pow2 3 5 3 1 (fint 2) MW None fw false false = Ok q).
  { intros fw. eexists. apply (gen_full64 pow2 5 3 1 3 (fint 2) (fun j => Lj_of 5 j 2 true) (fun j => Nj_of 5 j 3 2 true) (fun j => L0_of j 2 true) (Ls_of 5 1 2 true)); [lia| |].
    - intros; apply SZ2; lia.
    - apply SZ2. lia. }
  destruct (GW false) as [qa Eqa]. destruct (GW true) as [qs Eqs]. destruct (GF false) as [ra Era]. destruct (GF true) as [rs Ers].
  set (fs := fun (_ _ : Z) (xs : list f64) => fold_right fadd (fint 0) xs). destruct (jstore_accurate 5) as [A1 A2].
  set (f := Nd64 [5; 9] (fun ix => match ix with [l; q] => get2 ones l q | _ => creal (fint 0) end)).
  assert (D : (0 <= bpow radix2 (-50) <= 1)%R) by (change 1%R with (bpow radix2 0); split; [apply bpow_ge_0|apply bpow_le; lia]).
  destruct (rt_jax64 near_exp pow2 near_lg fs jstore 3 ones f 5 3 1 0 MW None false (bpow radix2 (-50)) 1 psi phi (Some qa) (Some qs) qa qs
    ltac:(lia) ltac:(lia) ltac:(lia) near_loggamma near_relative near_accurate HP EJ ltac:(lia) right_summation D B1 A1 E2 Eqa (or_intror eq_refl) Eqs (or_intror eq_refl) HH NN eq_refl) as (w & sc & g & EA & ES & _ & G).
  destruct (rt_pre64 near_exp pow2 near_lg fs jstore 3 ones f 5 3 1 0 MW None false (bpow radix2 (-50)) 1 psi phi ra rs
    ltac:(lia) ltac:(lia) ltac:(lia) near_loggamma near_relative near_accurate HP EJ ltac:(lia) right_summation D B1 A2 E2 Era Ers HH NN eq_refl) as (w' & sc' & g' & EA' & ES' & _ & G').
  assert (V : cval (get2 ones 2 5) = RtoC 1) by apply (ones_get 2 5 ltac:(lia) ltac:(lia)).
  assert (FIN : forall z, (Cmod (cval z - cval (get2 ones 2 5))%C <= (quad_error 2 300 + bpow radix2 (-32)) * Cmod (cval (get2 ones 2 5)) + bpow radix2 (-50) * 1 * (3 * sqrt (IZR (3 * (3 + 1) * (2 * 2 + 1))) + 21) + bpow radix2 (-1000))%R ->
    (Cmod (cval z - RtoC 1)%C <= 1 / 100)%R).
  { intros z K. rewrite V, Cmod_1 in K. pose proof quad_err2 as QE. eapply Rle_trans; [exact K|].
    assert (T2 : (bpow radix2 (-1000) <= bpow radix2 (-32))%R) by (apply bpow_le; lia). change (bpow radix2 (-32)) with (/ 4294967296)%R in *. change (bpow radix2 (-50)) with (/ 1125899906842624)%R.
    assert (SQ : (sqrt (IZR (3 * (3 + 1) * (2 * 2 + 1))) <= 8)%R) by (rewrite <- (sqrt_square 8) by lra; apply sqrt_le_1_alt; simpl; lra). lra. }
  exists near_exp, pow2, near_lg, fs, jstore, ones, f, psi, phi, qa, ra, qs, rs, w, sc, g, w', sc', g'.
  split; [apply near_loggamma|]. split; [apply near_relative|]. split; [apply near_accurate|]. split; [exact HP|]. split; [exact EJ|]. split; [apply right_summation|].
  split; [exact A1|]. split; [exact A2|]. split; [exact E2|]. split; [exact Eqa|]. split; [exact Era|]. split; [exact Eqs|]. split; [exact Ers|].
  split; [exact HH|]. split; [exact NN|]. split; [reflexivity|]. split; [reflexivity|]. split; [exact EA|]. split; [exact ES|]. split; [exact EA'|]. split; [exact ES'|]. split; [exact V|].
  split; apply FIN; [apply (G 2 5); lia|apply (G' 2 5); lia].
Qed.

(*% the same signal, maps and library: every hypothesis of the two theorems of C73 is met *)
(*@E C73_example *)
Lemma ex_c73 : exists fexp fpow flg O Oj psi phi sz qa ra qs rs f flm w sc T S,
  accurate_loggamma flg /\ relative_exp fexp /\ accurate_exp fexp /\ exact_powers fpow 3 /\ j_max 5 2 = Ok 3 /\ sampling_known MW None /\
  filters_directional_vectorised_fp fexp fpow flg 3 5 3 1 (fint 2) 0 0 = Ok (psi, phi) /\
  (forall j, LN_j 5 j 3 2 true = Ok (sz j)) /\ scal_bandlimit 5 1 2 true = Ok 2 /\
  generate_wigner_precomputes_fp fpow 3 5 3 1 (fint 2) MW None false false = Ok qa /\ generate_full_precomputes_fp fpow 3 5 3 1 (fint 2) MW None false false false = Ok ra /\
  generate_wigner_precomputes_fp fpow 3 5 3 1 (fint 2) MW None true false = Ok qs /\ generate_full_precomputes_fp fpow 3 5 3 1 (fint 2) MW None true false false = Ok rs /\
  (fwd64 O f 5 0 MW None false = Ok flm /\ fwd64 (jax_lib Oj) f 5 0 MW None false = Ok flm /\ fwd64 (pre_lib Oj) f 5 0 MW None false = Ok flm /\
   rows flm = 5 /\ cols flm = 9 /\ cval (get2 flm 2 5) = RtoC 1) /\
  wavelet_shape_check_fp fpow 3 w sc 5 3 1 (fint 2) MW None true = Ok tt /\
  (fwd64 O sc 2 0 MW None false = Ok S /\ fwd64 (jax_lib Oj) sc 2 0 MW None false = Ok S /\ fwd64 (pre_lib Oj) sc 2 0 MW None false = Ok S /\
   rows S = 2 /\ cols S = 3 /\ cval (get2 S 1 2) = RtoC 1) /\
  forall j, 1 <= j <= 3 -> let '(Lj, Nj, L0j) := sz j in
    dim0 (T j) = 2 * Nj - 1 /\ dim1 (T j) = Lj /\ dim2 (T j) = 2 * Lj - 1 /\ cval (get3 (T j) 0 0 0) = RtoC 1 /\
    exists fj, lrd w (j - 1) = Ok fj /\ wfwd64 O fj Lj Nj L0j MW false None = Ok (T j) /\
      wfwd64 (jax_lib Oj) fj Lj Nj L0j MW false None = Ok (T j) /\ wfwd64 (pre_lib Oj) fj Lj Nj L0j MW false None = Ok (T j).
Proof.
  destruct ex_all as (fexp & fpow & flg & fsum & O & Oj & psi & phi & qa & ra & qs & rs & f & flm & w & sc & T & S & H1 & H2 & H3 & H4 & H5 & H6 & H7 & H8 & H9 & H10 & H11 & H12 & H13 & H14 & H15).
  destruct sz5 as [SZ SL]. exists fexp, fpow, flg, O, Oj, psi, phi, (szf 5 3 2 true), qa, ra, qs, rs, f, flm, w, sc, T, S.
  do 5 (split; [assumption|]). split; [exact I|]. do 7 (split; [assumption|]). split; [tauto|]. split; [assumption|]. split; [tauto|].
  intros j Hj. specialize (H15 j Hj). unfold szf in *. tauto.
Qed.
