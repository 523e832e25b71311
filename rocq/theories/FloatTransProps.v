(** Statements and proofs for PropertiesFloatTrans.v *)

From Coq Require Import ZArith Reals List Bool Permutation Lia Lra Psatz FunctionalExtensionality.
From Coquelicot Require Import Rcomplements Complex.
From Flocq Require Import Core Relative IEEE754.BinarySingleNaN.
From Verif Require Import Py PyFacts ModelSamples SamplesFacts ModelFilters ModelTransforms FiltersFacts AxisymFacts DirectionFacts DirFilterFacts
  Spec SpecTransforms SpecQuad FiltersProps TransformsFacts BackendFacts LoopFacts ReconFacts RoundFacts TransformsProps SignalProps FrameProps.
From Verif Require Import ModelFloat ModelFloatDir ModelFloatTrans FloatProps SpecFp SpecFpDir SpecFpTrans FloatFilterProps FloatDefault FloatAccProps FloatDirFacts FloatDirProps
  FloatDirFilterProps FloatSpinProps FloatTransFacts FloatTransFilt FloatTransErr FloatTransCore FloatTransRound FloatTransSum FloatTransTrip FloatTransClosed SamplesProps.
From Verif Require Import FloatFacts.
Import ListNotations.
Open Scope Z_scope.

(*T The transforms in binary64 *)
(*! From Coq Require Import ZArith Reals List Bool. *)
(*! From Coquelicot Require Import Complex. *)
(*! From Flocq Require Import Core IEEE754.BinarySingleNaN. *)
(*! Import ListNotations. *)
(*! From Verif Require Import Py ModelSamples ModelFilters ModelFloat ModelFloatDir ModelFloatTrans Spec SpecTransforms SpecQuad SpecFp SpecFpDir SpecFpTrans. *)

(*% ** C69: analysis and synthesis in binary64 *)

(*@ C69_analysis_coefficients *)
Lemma an64 : forall fexp fpow flg O J f flm L N J_min spin s nside reality mr psi phi sz Ls,
  1 <= L <= 2 ^ 52 -> 1 <= N <= L -> N <= 41 -> accurate_loggamma flg -> relative_exp fexp -> accurate_exp fexp -> exact_powers fpow J -> j_max L 2 = Ok J ->
  filters_directional_vectorised_fp fexp fpow flg J L N J_min (fint 2) spin 0 = Ok (psi, phi) -> sampling_known s nside ->
  (forall j, LN_j L j N 2 mr = Ok (sz j)) -> scal_bandlimit L J_min 2 mr = Ok Ls ->
  fwd64 O f L spin s nside reality = Ok flm -> rows flm = L -> cols flm = 2 * L - 1 -> numbers2 (bpow radix2 900) flm ->
  exists W S,
    analysis_fp fexp fpow flg O J f L N J_min (fint 2) spin 0 s nside reality mr
    = (w <- mapM (fun j => let '(Lj, Nj, L0j) := sz j in winv64 O (W j) Lj Nj L0j s reality nside) (zrange J_min (J + 1)) ;;
       sc <- inv64 O S Ls spin s nside reality ;;
       Ok (w, sc)) /\
    (forall j, J_min <= j <= J -> near3 (bpow radix2 (-49)) (bpow radix2 (-1073)) (W j) (wcoefs L (vals3 psi) (vals2 flm) sz j)) /\
    near2 (bpow radix2 (-49)) (bpow radix2 (-1073)) S (scaling_coefs L (vals1 phi) (vals2 flm) Ls).
Proof.
  intros fexp fpow flg O J f flm L N J_min spin s nside reality mr psi phi sz Ls HL HN HN' Hg Hr Hf HP EJ EF Hs Esz ELs Ef R1 R2 Hn.
  pose proof (filt64 fexp fpow flg J L N J_min spin psi phi HL ltac:(lia) Hg Hr Hf HP EJ (or_intror EF)) as HF. pose proof (f_range _ _ _ _ _ _ _ _ HF) as HJ.
  pose proof (J_le L J HL EJ) as HJ52. destruct (dims L N J_min J spin psi phi HF) as (D0 & D1 & D2 & D3 & _).
  rewrite (sz_eq L N 2 mr sz ltac:(lra) Esz), (Ls_eq L J_min 2 mr Ls ltac:(lra) ELs).
  pose proof (szs fpow L N J mr HL ltac:(lia) HP) as SZ.
  exists (fun j => wav64 L (Lj_of L j 2 mr) (Nj_of L j N 2 mr) (L0_of j 2 mr) j psi flm), (sca64 L phi flm (Ls_of L J_min 2 mr)). split; [|split].
  - rewrite (analysis64_ok fexp fpow flg L N J_min J (fint 2) mr (fun j => Lj_of L j 2 mr) (fun j => Nj_of L j N 2 mr) (fun j => L0_of j 2 mr) (Ls_of L J_min 2 mr)) with (psi := psi) (phi := phi); auto; try lia.
    + rewrite Ef. cbn [bind]. reflexivity.
    + intros j Hj. apply SZ. lia.
    + intros j Hj. destruct (Hsz L N J_min J spin mr psi phi HL HN HF j Hj) as (Z1 & Z2 & Z3 & Z4). lia.
    + apply SZ. lia.
    + apply (HLs L J_min mr HL).
    + eapply known_some. exact Hs.
    + intros flm' E. rewrite Ef in E. apply Ok_inj in E. subst flm'. auto.
  - intros j Hj. apply (wav_near L N J_min J spin mr psi phi); auto. intros. apply (size_psi fexp fpow flg J L N J_min spin psi phi); auto; lia.
  - apply (sca_near L N J_min J spin mr psi phi); auto. intros. apply (size_phi fexp fpow flg J L N J_min spin psi phi); auto; lia.
Qed.

Lemma synth_ext L J_min J P F sz T T' Ls S : (forall j, J_min <= j <= J -> T j = T' j) -> synthesised L J_min J P F sz T Ls S = synthesised L J_min J P F sz T' Ls S.
Proof.
  intros H. unfold synthesised. apply mk2_ext. intros l q Hl Hq. cbv zeta. f_equal. apply csumZ_ext. intros j Hj. destruct (sz j) as [[a b] c]. now rewrite H by lia.
Qed.
(*@ C69_synthesis_coefficients *)
Lemma sy64 : forall fexp fpow flg fsum O J f_wav f_scal T S L N J_min spin s nside reality mr psi phi sz Ls,
  1 <= L <= 2 ^ 52 -> 1 <= N <= L -> N <= 41 -> accurate_loggamma flg -> relative_exp fexp -> accurate_exp fexp -> exact_powers fpow J -> j_max L 2 = Ok J ->
  filters_directional_vectorised_fp fexp fpow flg J L N J_min (fint 2) spin 0 = Ok (psi, phi) -> summation fsum ->
  (forall j, LN_j L j N 2 mr = Ok (sz j)) -> scal_bandlimit L J_min 2 mr = Ok Ls ->
  wavelet_shape_check_fp fpow J f_wav f_scal L N J_min (fint 2) s nside mr = Ok tt ->
  fwd64 O f_scal Ls spin s nside reality = Ok S -> rows S = Ls -> cols S = 2 * Ls - 1 -> numbers2 (bpow radix2 900) S ->
  (forall j, J_min <= j <= J -> let '(Lj, Nj, L0j) := sz j in
     (exists fj, lrd f_wav (j - J_min) = Ok fj /\ wfwd64 O fj Lj Nj L0j s reality nside = Ok (T j)) /\
     dim0 (T j) = 2 * Nj - 1 /\ dim1 (T j) = Lj /\ dim2 (T j) = 2 * Lj - 1 /\ numbers3 (bpow radix2 900) (T j)) ->
  exists g,
    synthesis_fp fexp fpow flg fsum O J f_wav f_scal L N J_min (fint 2) spin 0 s nside reality mr = inv64 O g L spin s nside reality /\
    rows g = L /\ cols g = 2 * L - 1 /\
    forall l q, 0 <= l < L -> 0 <= q < 2 * L - 1 ->
      finite64 (get2 g l q) /\
      (Cmod (cval (get2 g l q) - get2 (synthesised L J_min J (vals3 psi) (vals1 phi) sz (fun j => vals3 (T j)) Ls (vals2 S)) l q)%C
       <= IZR (N + J + 8) * bpow radix2 (-52) *
          Cmod (get2 (synthesised L J_min J (abs3 (vals3 psi)) (abs1 (vals1 phi)) sz (fun j => abs3 (vals3 (T j))) Ls (abs2 (vals2 S))) l q) + bpow radix2 (-1060))%R.
Proof.
  intros fexp fpow flg fsum O J f_wav f_scal T S L N J_min spin s nside reality mr psi phi sz Ls HL HN HN' Hg Hr Hf HP EJ EF Hfs Esz ELs EC ES R1 R2 Hn HT.
  pose proof (filt64 fexp fpow flg J L N J_min spin psi phi HL ltac:(lia) Hg Hr Hf HP EJ (or_intror EF)) as HF. pose proof (f_range _ _ _ _ _ _ _ _ HF) as HJ.
  pose proof (J_le L J HL EJ) as HJ52. destruct (dims L N J_min J spin psi phi HF) as (D0 & D1 & D2 & D3 & _).
  rewrite (sz_eq L N 2 mr sz ltac:(lra) Esz) in *. rewrite (Ls_eq L J_min 2 mr Ls ltac:(lra) ELs) in *. clear Esz ELs sz Ls.
  pose proof (szs fpow L N J mr HL ltac:(lia) HP) as SZ. set (Ts := map T (zrange J_min (J + 1))).
  assert (TN : forall j, J_min <= j <= J -> Tnth nd30 J_min Ts j = T j) by (intros j Hj; unfold Ts; apply Tnth_map; lia).
  assert (Hp : forall j l n, J_min <= j <= J -> 0 <= l < L -> Z.abs n < L -> let z := get3 psi j l (L - 1 + n) in finite64 z /\ exists v, cval z = Cmult (nu N) (RtoC v) /\ fsize (w8 l) v)
    by (intros; apply (size_psi fexp fpow flg J L N J_min spin psi phi); auto; lia).
  assert (Hq : forall l, 0 <= l < L -> is_finite (get1 phi l) = true /\ fsize (w4 l * w4 l) (B2R (get1 phi l)))
    by (intros; apply (size_phi fexp fpow flg J L N J_min spin psi phi); auto; lia).
  exists (syn64 fsum L J_min J (fun j => Lj_of L j 2 mr) (fun j => Nj_of L j N 2 mr) (fun j => L0_of j 2 mr) (Ls_of L J_min 2 mr) psi phi Ts S).
  split; [|split; [reflexivity|split; [reflexivity|]]].
  - rewrite (synthesis64_ok fexp fpow flg fsum L N J_min J (fint 2) mr (fun j => Lj_of L j 2 mr) (fun j => Nj_of L j N 2 mr) (fun j => L0_of j 2 mr) (Ls_of L J_min 2 mr)) with (psi := psi) (phi := phi); auto; try lia.
    + rewrite EC. cbn [bind]. rewrite ES. cbn [bind]. rewrite (mapM_ok _ T); [reflexivity|]. intros j Hj. apply In_zrange in Hj.
      pose proof (HT j ltac:(lia)) as X. unfold szf in X. destruct X as ((fj & E1 & E2) & _). rewrite E1. cbn [bind]. exact E2.
    + intros j Hj. apply SZ. lia.
    + intros j Hj. destruct (Hsz L N J_min J spin mr psi phi HL HN HF j Hj) as (Z1 & Z2 & Z3 & Z4). lia.
    + apply SZ. lia.
    + apply (HLs L J_min mr HL).
    + intros S' E. rewrite ES in E. apply Ok_inj in E. subst S'. auto.
    + intros j fj T' Hj E1 E2. pose proof (HT j Hj) as X. unfold szf in X. destruct X as ((fj' & E1' & E2') & A1 & A2 & A3 & _).
      assert (fj' = fj) as -> by congruence. assert (T' = T j) as -> by congruence. auto.
  - intros l q Hl Hq'.
    destruct (syn_near L N J_min J spin mr psi phi HL HN HN' ltac:(lia) HF Hp Hq fsum Ts S l q Hfs) as (F & E & _); auto.
    { intros j Hj. cbv zeta. rewrite TN by exact Hj. pose proof (HT j Hj) as X. unfold szf in X. tauto. }
    split; [exact F|]. 
    rewrite (synth_ext _ _ _ _ _ _ (fun j => vals3 (T j)) (fun j => vals3 (Tnth nd30 J_min Ts j))) by (intros j Hj; now rewrite TN).
    rewrite (synth_ext _ _ _ (abs3 (vals3 psi)) _ _ (fun j => abs3 (vals3 (T j))) (fun j => abs3 (vals3 (Tnth nd30 J_min Ts j)))) by (intros j Hj; now rewrite TN).
    exact E.
Qed.

(*@ C69_shape_check *)
Lemma chk64' : forall fpow J f_wav f_scal L N J_min s nside mr sz Ls,
  1 <= L <= 2 ^ 52 -> exact_powers fpow J -> j_max L 2 = Ok J -> 0 <= J_min < J -> sampling_known s nside ->
  (forall j, LN_j L j N 2 mr = Ok (sz j)) -> scal_bandlimit L J_min 2 mr = Ok Ls ->
  (wavelet_shape_check_fp fpow J f_wav f_scal L N J_min (fint 2) s nside mr = Ok tt <->
   Z.of_nat (length f_wav) = J - J_min + 1 /\ s2_f_shape Ls s nside = Ok (nshape64 f_scal) /\
   forall j fj, J_min <= j <= J -> lrd f_wav (j - J_min) = Ok fj -> let '(Lj, Nj, _) := sz j in so3_f_shape Lj Nj s nside = Ok (nshape64 fj)).
Proof. exact chk64. Qed.

(*% ** C70: the round trip in binary64 *)

(*@ C70_round_trip *)
Lemma rt64 : forall fexp fpow flg fsum O J flm f L N J_min spin s nside reality mr d B,
  1 <= L <= 2 ^ 52 -> 1 <= N <= L -> N <= 41 -> accurate_loggamma flg -> relative_exp fexp -> accurate_exp fexp -> exact_powers fpow J -> j_max L 2 = Ok J ->
  0 <= J_min < J -> summation fsum -> (0 <= d <= 1)%R -> (bpow radix2 (-900) <= B <= bpow radix2 780)%R -> accurate64 true d O L spin s nside reality ->
  is_harmonic L spin reality (vals2 flm) -> numbers2 B flm -> inv64 O flm L spin s nside reality = Ok f ->
  exists w sc g,
    analysis_fp fexp fpow flg O J f L N J_min (fint 2) spin 0 s nside reality mr = Ok (w, sc) /\
    synthesis_fp fexp fpow flg fsum O J w sc L N J_min (fint 2) spin 0 s nside reality mr = inv64 O g L spin s nside reality /\
    harmonic L spin (vals2 g) /\
    forall l q, 0 <= l < L -> 0 <= q < 2 * L - 1 ->
      finite64 (get2 g l q) /\
      (Cmod (cval (get2 g l q) - cval (get2 flm l q))%C
       <= (quad_error 2 300 + bpow radix2 (-32)) * Cmod (cval (get2 flm l q))
          + d * B * (3 * sqrt (IZR (N * (J + 1) * (2 * l + 1))) + 21) + bpow radix2 (-1000))%R.
Proof.
  intros fexp fpow flg fsum O J flm0 f L N J_min spin s nside reality mr d B HL HN HN' Hg Hr Hf HP EJ HJ Hfs Hd HB HA Hh0 Hn0 Ef0.
  destruct (fp2_dirf_total fexp fpow flg J L N J_min spin 0 HL ltac:(left; lia) HJ HP) as [_ ([psi phi] & EF)].
  pose proof (filt64 fexp fpow flg J L N J_min spin psi phi HL ltac:(lia) Hg Hr Hf HP EJ (or_intror EF)) as HF.
  pose proof (J_le L J HL EJ) as HJ52. destruct (dims L N J_min J spin psi phi HF) as (D0 & D1 & D2 & D3 & _).
  pose proof (szs fpow L N J mr HL ltac:(lia) HP) as SZ. pose proof (HLs L J_min mr HL) as HLs'.
  apply (rt_core fexp fpow flg fsum O J flm0 f L N J_min spin s nside reality mr true d B psi phi (fun a j => wav64 L (Lj_of L j 2 mr) (Nj_of L j N 2 mr) (L0_of j 2 mr) j psi a)
    _ (fun w sc => synthesis_fp fexp fpow flg fsum O J w sc L N J_min (fint 2) spin 0 s nside reality mr)); auto.
  - intros. apply same3_refl.
  - intros Hs Hf0. apply (analysis64_ok fexp fpow flg L N J_min J (fint 2) mr (fun j => Lj_of L j 2 mr) (fun j => Nj_of L j N 2 mr) (fun j => L0_of j 2 mr) (Ls_of L J_min 2 mr)) with (psi := psi) (phi := phi); auto; try lia.
    + intros j Hj. apply SZ. lia.
    + intros j Hj. destruct (Hsz L N J_min J spin mr psi phi HL HN HF j Hj) as (Z1 & Z2 & Z3 & Z4). lia.
    + apply SZ. lia.
    + eapply known_some. apply Hs. reflexivity.
  - intros w sc EC HS HT.
    rewrite (synthesis64_ok fexp fpow flg fsum L N J_min J (fint 2) mr (fun j => Lj_of L j 2 mr) (fun j => Nj_of L j N 2 mr) (fun j => L0_of j 2 mr) (Ls_of L J_min 2 mr)) with (psi := psi) (phi := phi); auto; try lia.
    + rewrite (EC eq_refl). reflexivity.
    + intros j Hj. apply SZ. lia.
    + intros j Hj. destruct (Hsz L N J_min J spin mr psi phi HL HN HF j Hj) as (Z1 & Z2 & Z3 & Z4). lia.
    + apply SZ. lia.
Qed.

Definition store : s2fft64 :=
  S2fft64 (fun f L spin s nside reality => Ok (mk2 L (2 * L - 1) (fun l q => ndat64 f [l; q])))
    (fun a L spin s nside reality => sh <- s2_f_shape L s nside ;; Ok (Nd64 sh (fun ix => match ix with [l; q] => get2 a l q | _ => creal (fint 0) end)))
    (fun f L N L0 s reality nside => Ok (mk3 (2 * N - 1) L (2 * L - 1) (fun n l q => ndat64 f [n; l; q])))
    (fun a L N L0 s reality nside => sh <- so3_f_shape L N s nside ;; Ok (Nd64 sh (fun ix => match ix with [n; l; q] => get3 a n l q | _ => creal (fint 0) end))).
Lemma store_accurate_r L spin reality : accurate64 true 0 store L spin MW None reality.
Proof.
  split.
  - intros M HM a B _ ((R1 & R2 & R3) & Hr) Hn. cbn [vals2 rows cols mk2] in R1, R2.
    exists (Nd64 [M; 2 * M - 1] (fun ix => match ix with [l; q] => get2 a l q | _ => creal (fint 0) end)), (mk2 M (2 * M - 1) (fun l q => get2 a l q)).
    assert (EV : vals2 (mk2 M (2 * M - 1) (fun l q => get2 a l q)) = vals2 a).
    { unfold vals2, mk2. cbn [rows cols get2]. rewrite R1, R2. f_equal. apply functional_extensionality. intros l. apply functional_extensionality. intros q.
      destruct (inb M l && inb (2 * M - 1) q) eqn:E; reflexivity. }
    split; [reflexivity|]. split; [reflexivity|]. split; [reflexivity|]. split; [rewrite EV; split; [split; [exact R1|split; [exact R2|exact R3]]|exact Hr]|].
    split; [symmetry; exact R1|]. split; [symmetry; exact R2|]. cbn [vals2 rows cols mk2]. intros i j Hi Hj. rewrite get2_mk by lia. split; [apply Hn; lia|].
    rewrite get2_vals by lia. replace (cval (get2 a i j) - cval (get2 a i j))%C with (RtoC 0) by ring. rewrite Cmod_0. lra.
  - intros M N L0 HM HN HL0 a B _ ((R0 & R1 & R2 & R3) & Hr) Hn. cbn [vals3 dim0 dim1 dim2 mk3] in R0, R1, R2.
    exists (Nd64 [2 * N - 1; M; 2 * M - 1] (fun ix => match ix with [n; l; q] => get3 a n l q | _ => creal (fint 0) end)), (mk3 (2 * N - 1) M (2 * M - 1) (fun n l q => get3 a n l q)).
    assert (EV : vals3 (mk3 (2 * N - 1) M (2 * M - 1) (fun n l q => get3 a n l q)) = vals3 a).
    { unfold vals3, mk3. cbn [dim0 dim1 dim2 get3]. rewrite R0, R1, R2. f_equal. apply functional_extensionality. intros n. apply functional_extensionality. intros l. apply functional_extensionality. intros q.
      destruct (inb (2 * N - 1) n && inb M l && inb (2 * M - 1) q) eqn:E; reflexivity. }
    split; [reflexivity|]. split; [reflexivity|]. split; [reflexivity|]. split; [rewrite EV; split; [split; [exact R0|split; [exact R1|split; [exact R2|exact R3]]]|exact Hr]|].
    split; [symmetry; exact R0|]. split; [symmetry; exact R1|]. split; [symmetry; exact R2|]. cbn [vals3 dim0 dim1 dim2 mk3]. intros i j k Hi Hj Hk. rewrite get3_mk by lia. split; [apply Hn; lia|].
    rewrite get3_vals by lia. replace (cval (get3 a i j k) - cval (get3 a i j k))%C with (RtoC 0) by ring. rewrite Cmod_0. lra.
Qed.
Lemma store_accurate L spin : accurate64 true 0 store L spin MW None false.
Proof. apply store_accurate_r. Qed.
Lemma right_summation : summation (fun _ _ xs => fold_right fadd (fint 0) xs).
Proof.
  intros l m xs. induction xs as [|x xs IH]; [constructor|]. cbn [fold_right]. apply (adds_two [x] xs _ x _); [constructor|exact IH|apply Permutation_refl].
Qed.
Definition ones : arr2 c64 := mk2 5 9 (fun l q => if (1 <=? l) && (Z.abs (q - 4) <=? l) then creal (fint 1) else creal (fint 0)).
Lemma ones_get l q : 0 <= l < 5 -> 0 <= q < 9 -> finite64 (get2 ones l q) /\ cval (get2 ones l q) = (if (1 <=? l) && (Z.abs (q - 4) <=? l) then RtoC 1 else RtoC 0).
Proof.
  intros Hl Hq. unfold ones. rewrite get2_mk by lia. destruct ((1 <=? l) && (Z.abs (q - 4) <=? l)).
  - split; [apply fin_creal, fint_fin; lia|]. rewrite cval_creal, fint_B2R by lia. reflexivity.
  - split; [apply fin_creal, fint_fin; lia|]. reflexivity.
Qed.

(*% L = 5, N = 3, spin 1, scales 1 to 3: every hypothesis of the three theorems is met; the coefficients are 1 wherever they may be *)
(*@E C69_example *)
Lemma ex_c69 : exists fexp fpow flg fsum O psi phi f flm w sc T S,
  accurate_loggamma flg /\ relative_exp fexp /\ accurate_exp fexp /\ exact_powers fpow 3 /\ j_max 5 2 = Ok 3 /\ summation fsum /\
  filters_directional_vectorised_fp fexp fpow flg 3 5 3 1 (fint 2) 1 0 = Ok (psi, phi) /\
  (forall j, LN_j 5 j 3 2 false = Ok (5, 3, 0)) /\ scal_bandlimit 5 1 2 false = Ok 5 /\
  fwd64 O f 5 1 MW None false = Ok flm /\ rows flm = 5 /\ cols flm = 9 /\ numbers2 (bpow radix2 900) flm /\ cval (get2 flm 2 5) = RtoC 1 /\
  wavelet_shape_check_fp fpow 3 w sc 5 3 1 (fint 2) MW None false = Ok tt /\
  fwd64 O sc 5 1 MW None false = Ok S /\ rows S = 5 /\ cols S = 9 /\ numbers2 (bpow radix2 900) S /\ cval (get2 S 2 5) = RtoC 1 /\
  forall j, 1 <= j <= 3 -> (exists fj, lrd w (j - 1) = Ok fj /\ wfwd64 O fj 5 3 0 MW false None = Ok (T j)) /\
    dim0 (T j) = 5 /\ dim1 (T j) = 5 /\ dim2 (T j) = 9 /\ numbers3 (bpow radix2 900) (T j) /\ cval (get3 (T j) 2 2 5) = RtoC 1.
Proof.
  destruct j_max_5_2 as (EJ & _). pose proof (pow2_exact_powers 3 ltac:(lia)) as HP.
  destruct (fp2_dirf_total near_exp pow2 near_lg 3 5 3 1 1 0 ltac:(lia) ltac:(left; lia) ltac:(lia) HP) as [_ ([psi phi] & E2)].
  assert (B1 : (1 <= bpow radix2 900)%R) by (change 1%R with (bpow radix2 0); apply bpow_le; lia).
  set (f := Nd64 [5; 9] (fun _ => creal (fint 1))). set (a := mk2 5 (2 * 5 - 1) (fun l q => ndat64 f [l; q])).
  set (y := Nd64 [5; 5; 9] (fun _ => creal (fint 1))). set (t := mk3 (2 * 3 - 1) 5 (2 * 5 - 1) (fun n l q => ndat64 y [n; l; q])).
  assert (V1 : cval (creal (fint 1)) = RtoC 1) by (rewrite cval_creal, fint_B2R by lia; reflexivity).
  assert (NA : numbers2 (bpow radix2 900) a).
  { intros i j Hi Hj. change (rows a) with 5 in Hi. change (cols a) with 9 in Hj. unfold a. rewrite get2_mk by lia. change (ndat64 f [i; j]) with (creal (fint 1)). split; [apply fin_creal, fint_fin; lia|].
    rewrite V1, Cmod_1. exact B1. }
  assert (NT : numbers3 (bpow radix2 900) t).
  { intros i j k Hi Hj Hk. change (dim0 t) with 5 in Hi. change (dim1 t) with 5 in Hj. change (dim2 t) with 9 in Hk. unfold t. rewrite get3_mk by lia. change (ndat64 y [i; j; k]) with (creal (fint 1)). split; [apply fin_creal, fint_fin; lia|].
    rewrite V1, Cmod_1. exact B1. }
  assert (SZ : forall j, LN_j 5 j 3 2 false = Ok (5, 3, 0)) by (intros j; apply (LN_j_ok 5 j 3 2 false); lra).
  assert (SL : scal_bandlimit 5 1 2 false = Ok 5) by (apply (scal_bandlimit_ok 5 1 2 false); lra).
  exists near_exp, pow2, near_lg, (fun _ _ xs => fold_right fadd (fint 0) xs), store, psi, phi, f, a, [y; y; y], f, (fun _ => t), a.
  split; [apply near_loggamma|]. split; [apply near_relative|]. split; [apply near_accurate|]. split; [exact HP|]. split; [exact EJ|]. split; [apply right_summation|]. split; [exact E2|].
  split; [exact SZ|]. split; [exact SL|].
  split; [reflexivity|]. split; [reflexivity|]. split; [reflexivity|]. split; [exact NA|]. split; [unfold a; rewrite get2_mk by lia; exact V1|].
  split.
  { apply (chk64 pow2 3 [y; y; y] f 5 3 1 MW None false (fun _ => (5, 3, 0)) 5); auto; try lia.
    - exact I.
    - split; [reflexivity|]. split; [reflexivity|]. intros j fj Hj E. assert (j = 1 \/ j = 2 \/ j = 3) as [->|[->| ->]] by lia; apply Ok_inj in E; subst fj; reflexivity. }
  split; [reflexivity|]. split; [reflexivity|]. split; [reflexivity|]. split; [exact NA|]. split; [unfold a; rewrite get2_mk by lia; exact V1|].
  intros j Hj. split.
  { exists y. split; [|reflexivity]. assert (j = 1 \/ j = 2 \/ j = 3) as [->|[->| ->]] by lia; reflexivity. }
  split; [reflexivity|]. split; [reflexivity|]. split; [reflexivity|]. split; [exact NT|]. unfold t. rewrite get3_mk by lia. exact V1.
Qed.

(*% L = 5, N = 3, spin 1, scales 1 to 3, multiresolution: a library and transforms meet all the hypotheses, and
    the coefficients of a signal whose coefficients are all 1 come back within 1/100 *)
(*@E C70_example *)
Lemma ex_c70 : exists fexp fpow flg fsum O flm f w sc g,
  accurate_loggamma flg /\ relative_exp fexp /\ accurate_exp fexp /\ exact_powers fpow 3 /\ j_max 5 2 = Ok 3 /\ summation fsum /\
  accurate64 true 0 O 5 1 MW None false /\ is_harmonic 5 1 false (vals2 flm) /\ numbers2 1 flm /\ inv64 O flm 5 1 MW None false = Ok f /\
  analysis_fp fexp fpow flg O 3 f 5 3 1 (fint 2) 1 0 MW None false true = Ok (w, sc) /\
  synthesis_fp fexp fpow flg fsum O 3 w sc 5 3 1 (fint 2) 1 0 MW None false true = inv64 O g 5 1 MW None false /\
  cval (get2 flm 2 5) = RtoC 1 /\ (Cmod (cval (get2 g 2 5) - RtoC 1)%C <= 1 / 100)%R.
Proof.
  destruct j_max_5_2 as (EJ & _). pose proof (pow2_exact_powers 3 ltac:(lia)) as HP.
  assert (HH : is_harmonic 5 1 false (vals2 ones)).
  { split; [|discriminate]. split; [reflexivity|]. split; [reflexivity|]. intros l m Hne. unfold vals2 in Hne. cbn [get2 mk2] in Hne. change (rows ones) with 5 in Hne. change (cols ones) with 9 in Hne.
    destruct (inb 5 l && inb 9 (5 - 1 + m)) eqn:E; [|exfalso; apply Hne; reflexivity]. apply andb_prop in E as [I1 I2]. apply inb_true in I1, I2.
    rewrite (proj2 (ones_get l (5 - 1 + m) I1 I2)) in Hne. destruct ((1 <=? l) && (Z.abs (5 - 1 + m - 4) <=? l)) eqn:E; [|exfalso; apply Hne; reflexivity].
    apply andb_prop in E as [E1 E2]. apply Z.leb_le in E1, E2. replace (5 - 1 + m - 4) with m in E2 by lia. lia. }
  assert (NN : numbers2 1 ones).
  { intros i j Hi Hj. destruct (ones_get i j Hi Hj) as [F ->]. split; [exact F|]. destruct ((1 <=? i) && (Z.abs (j - 4) <=? i)); [rewrite Cmod_1|rewrite Cmod_0]; lra. }
  assert (B1 : (bpow radix2 (-900) <= 1 <= bpow radix2 780)%R) by (change 1%R with (bpow radix2 0); split; apply bpow_le; lia).
  destruct (rt64 near_exp pow2 near_lg (fun _ _ xs => fold_right fadd (fint 0) xs) store 3 ones (Nd64 [5; 9] (fun ix => match ix with [l; q] => get2 ones l q | _ => creal (fint 0) end)) 5 3 1 1 MW None false true 0 1
    ltac:(lia) ltac:(lia) ltac:(lia) near_loggamma near_relative near_accurate HP EJ ltac:(lia) right_summation ltac:(lra) B1 (store_accurate 5 1) HH NN eq_refl) as (w & sc & g & EA & ES & _ & G).
  exists near_exp, pow2, near_lg, (fun _ _ xs => fold_right fadd (fint 0) xs), store, ones, (Nd64 [5; 9] (fun ix => match ix with [l; q] => get2 ones l q | _ => creal (fint 0) end)), w, sc, g.
  split; [apply near_loggamma|]. split; [apply near_relative|]. split; [apply near_accurate|]. split; [exact HP|]. split; [exact EJ|]. split; [apply right_summation|]. split; [apply store_accurate|].
  split; [exact HH|]. split; [exact NN|]. split; [reflexivity|]. split; [exact EA|]. split; [exact ES|].
  assert (V : cval (get2 ones 2 5) = RtoC 1) by apply (ones_get 2 5 ltac:(lia) ltac:(lia)). split; [exact V|].
  destruct (G 2 5 ltac:(lia) ltac:(lia)) as [_ K]. rewrite V, Cmod_1 in K. pose proof quad_err2 as QE. eapply Rle_trans; [exact K|].
  assert (T2 : (bpow radix2 (-1000) <= bpow radix2 (-32))%R) by (apply bpow_le; lia). change (bpow radix2 (-32)) with (/ 4294967296)%R in *.
  rewrite Rmult_0_l, Rmult_0_l. lra.
Qed.
