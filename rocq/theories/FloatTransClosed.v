(** * The round trip of a transform given in closed form *)

From Coq Require Import ZArith Reals List Bool Permutation Lia Lra Psatz FunctionalExtensionality.
From Coquelicot Require Import Rcomplements Complex.
From Flocq Require Import Core Relative IEEE754.BinarySingleNaN.
From Verif Require Import Py PyFacts ModelSamples SamplesFacts ModelFilters ModelTransforms FiltersFacts AxisymFacts DirectionFacts DirFilterFacts
  Spec SpecTransforms SpecQuad FiltersProps TransformsFacts BackendFacts LoopFacts ReconFacts RoundFacts TransformsProps SignalProps FrameProps.
From Verif Require Import ModelFloat ModelFloatDir ModelFloatTrans FloatProps SpecFp SpecFpDir SpecFpTrans FloatFilterProps FloatDefault FloatAccProps FloatDirFacts FloatDirProps
  FloatDirFilterProps FloatSpinProps FloatTransFacts FloatTransFilt FloatTransErr FloatTransCore FloatTransRound FloatTransSum FloatTransTrip SamplesProps.
From Verif Require Import FloatFacts.
Import ListNotations.
Open Scope Z_scope.

Lemma szs fpow L N J mr : 1 <= L <= 2 ^ 52 -> 1 <= J <= 52 -> exact_powers fpow J -> forall j, 0 <= j <= J ->
  LN_j_fp fpow L j N (fint 2) mr = Ok (Lj_of L j 2 mr, Nj_of L j N 2 mr, L0_of j 2 mr) /\ scal_bandlimit_fp fpow L j (fint 2) mr = Ok (Ls_of L j 2 mr).
Proof.
  intros HL HJ HP j Hj. destruct (sizes64 fpow L N J j mr HL HJ HP Hj) as [A B]. rewrite A, B. split.
  - apply (LN_j_ok L j N 2 mr); lra || lia.
  - apply (scal_bandlimit_ok L j 2 mr); lra || lia.
Qed.

Lemma chk64 : forall fpow J f_wav f_scal L N J_min s nside mr sz Ls,
  1 <= L <= 2 ^ 52 -> exact_powers fpow J -> j_max L 2 = Ok J -> 0 <= J_min < J -> sampling_known s nside ->
  (forall j, LN_j L j N 2 mr = Ok (sz j)) -> scal_bandlimit L J_min 2 mr = Ok Ls ->
  (wavelet_shape_check_fp fpow J f_wav f_scal L N J_min (fint 2) s nside mr = Ok tt <->
   Z.of_nat (length f_wav) = J - J_min + 1 /\ s2_f_shape Ls s nside = Ok (nshape64 f_scal) /\
   forall j fj, J_min <= j <= J -> lrd f_wav (j - J_min) = Ok fj -> let '(Lj, Nj, _) := sz j in so3_f_shape Lj Nj s nside = Ok (nshape64 fj)).
Proof.
  intros fpow J f_wav f_scal L N J_min s nside mr sz Ls HL HP EJ HJ Hs Esz ELs. pose proof (J_le L J HL EJ) as HJ52.
  rewrite (sz_eq L N 2 mr sz ltac:(lra) Esz). rewrite (Ls_eq L J_min 2 mr Ls ltac:(lra) ELs).
  pose proof (szs fpow L N J mr HL ltac:(lia) HP) as SZ. unfold wavelet_shape_check_fp, f_scal_fp, f_wav_j_fp. rewrite (proj2 (SZ J_min ltac:(lia))). cbn [bind].
  destruct (s2_shape_total (Ls_of L J_min 2 mr) s nside Hs) as [sh0 E0]. rewrite E0. 
  assert (SO : forall j, exists sh, so3_f_shape (Lj_of L j 2 mr) (Nj_of L j N 2 mr) s nside = Ok sh) by (intros j; apply so3_shape_total; exact Hs).
  assert (LO : forall js, (forall j, In j js -> J_min <= j <= J) -> Z.of_nat (length f_wav) = J - J_min + 1 ->
     (for_ js tt (fun j _ => a <- lrd f_wav (j - J_min) ;; sh <- (' (Lj, Nj, _) <- LN_j_fp fpow L j N (fint 2) mr ;; so3_f_shape Lj Nj s nside) ;; Py.guard (zlist_eqb (nshape64 a) sh) AssertionError) = Ok tt
      <-> forall j fj, In j js -> lrd f_wav (j - J_min) = Ok fj -> so3_f_shape (Lj_of L j 2 mr) (Nj_of L j N 2 mr) s nside = Ok (nshape64 fj))).
  { induction js as [|j r IH]; intros Hj Hlen; [split; [intros _ j fj []|reflexivity]|].
    cbn [for_]. rewrite (proj1 (SZ j ltac:(pose proof (Hj j (or_introl eq_refl)); lia))). cbn [bind]. destruct (SO j) as [sh Esh]. rewrite Esh. cbn [bind].
    assert (LR : exists fj, lrd f_wav (j - J_min) = Ok fj).
    { pose proof (Hj j (or_introl eq_refl)). destruct (nth_error f_wav (Z.to_nat (j - J_min))) as [fj|] eqn:E; [exists fj; apply lrd_nth; [lia|exact E]|]. apply nth_error_None in E. lia. }
    destruct LR as [fj Efj]. rewrite Efj. cbn [bind]. destruct (zlist_eqb (nshape64 fj) sh) eqn:Eq; cbn [Py.guard bind].
    - apply zlist_eqb_eq in Eq. specialize (IH (fun k Hk => Hj k (or_intror Hk)) Hlen). rewrite IH. split.
      + intros H j' fj' [<- |Hin] E'; [|now apply H]. rewrite Efj in E'. apply Ok_inj in E'. subst fj'. rewrite Eq. exact Esh.
      + intros H j' fj' Hin E'. apply H; auto. now right.
    - split; [discriminate|]. intros H. specialize (H j fj (or_introl eq_refl) Efj). rewrite Esh in H. apply Ok_inj in H. rewrite H in Eq. exfalso.
      rewrite <- H in Eq. assert (zlist_eqb sh sh = true) by (now apply zlist_eqb_eq). congruence. }
  assert (IR : forall j, In j (zrange J_min (J + 1)) -> J_min <= j <= J) by (intros j Hj; apply In_zrange in Hj; lia).
  destruct (Z.eqb_spec (Z.of_nat (length f_wav)) (J - J_min + 1)) as [El|El]; cbn [Py.guard bind].
  - destruct (zlist_eqb (nshape64 f_scal) sh0) eqn:Eq; cbn [Py.guard bind].
    + apply zlist_eqb_eq in Eq. rewrite (LO _ IR El). split.
      * intros H. split; [exact El|]. split; [now rewrite Eq|]. intros j fj Hj E. unfold szf. apply H; auto. apply In_zrange. lia.
      * intros (_ & _ & H) j fj Hj E. specialize (H j fj (IR j Hj) E). unfold szf in H. exact H.
    + split; [discriminate|]. intros (_ & H & _). apply Ok_inj in H. rewrite H in Eq. assert (zlist_eqb (nshape64 f_scal) (nshape64 f_scal) = true) by (now apply zlist_eqb_eq). congruence.
  - split; [discriminate|]. intros (H & _). contradiction.
Qed.


(** two arrays that hold the same numbers, up to the sign of zero *)
Definition same3 (a b : arr3 c64) : Prop := dim0 a = dim0 b /\ dim1 a = dim1 b /\ dim2 a = dim2 b /\
  forall i j k, 0 <= i < dim0 b -> 0 <= j < dim1 b -> 0 <= k < dim2 b -> cval (get3 a i j k) = cval (get3 b i j k) /\ (finite64 (get3 b i j k) -> finite64 (get3 a i j k)).
Lemma same3_vals a b : same3 a b -> vals3 a = vals3 b.
Proof.
  intros (H0 & H1 & H2 & H). unfold vals3. rewrite H0, H1, H2. apply mk3_ext. intros i j k Hi Hj Hk. apply H; assumption.
Qed.
Lemma same3_numbers a b M : same3 a b -> numbers3 M b -> numbers3 M a.
Proof.
  intros (H0 & H1 & H2 & H) Hb i j k Hi Hj Hk. rewrite H0 in Hi. rewrite H1 in Hj. rewrite H2 in Hk. destruct (H i j k Hi Hj Hk) as [E F]. destruct (Hb i j k Hi Hj Hk) as [A B].
  split; [apply F, A|rewrite E; exact B].
Qed.
Lemma same3_refl a : same3 a a.
Proof. split; [reflexivity|]. split; [reflexivity|]. split; [reflexivity|]. intros. split; auto. Qed.
Lemma same3_near a b r t c : same3 a b -> near3 r t b c -> near3 r t a c.
Proof.
  intros (H0 & H1 & H2 & H) (N0 & N1 & N2 & Hb). split; [congruence|]. split; [congruence|]. split; [congruence|]. intros i j k Hi Hj Hk.
  destruct (H i j k ltac:(lia) ltac:(lia) ltac:(lia)) as [E F]. destruct (Hb i j k Hi Hj Hk) as [A B]. split; [apply F, A|rewrite E; exact B].
Qed.

Definition same2 (a b : arr2 c64) : Prop := rows a = rows b /\ cols a = cols b /\
  forall i j, 0 <= i < rows b -> 0 <= j < cols b -> cval (get2 a i j) = cval (get2 b i j) /\ (finite64 (get2 b i j) -> finite64 (get2 a i j)).
Lemma same2_vals a b : same2 a b -> vals2 a = vals2 b.
Proof.
  intros (H0 & H1 & H). unfold vals2. rewrite H0, H1. apply mk2_ext. intros i j Hi Hj. apply H; assumption.
Qed.
Lemma same2_numbers a b M : same2 a b -> numbers2 M b -> numbers2 M a.
Proof.
  intros (H0 & H1 & H) Hb i j Hi Hj. rewrite H0 in Hi. rewrite H1 in Hj. destruct (H i j Hi Hj) as [E F]. destruct (Hb i j Hi Hj) as [A B].
  split; [apply F, A|rewrite E; exact B].
Qed.
Lemma same2_refl a : same2 a a.
Proof. split; [reflexivity|]. split; [reflexivity|]. intros. split; auto. Qed.
Lemma same2_near a b r t c : same2 a b -> near2 r t b c -> near2 r t a c.
Proof.
  intros (H0 & H1 & H) (N0 & N1 & Hb). split; [congruence|]. split; [congruence|]. intros i j Hi Hj.
  destruct (H i j ltac:(lia) ltac:(lia)) as [E F]. destruct (Hb i j Hi Hj) as [A B]. split; [apply F, A|rewrite E; exact B].
Qed.

Lemma rt_gen_at : forall fexp fpow flg O J flm f L N J_min spin s nside reality mr shaped d B psi phi (W : arr2 c64 -> Z -> arr3 c64) (SC : arr2 c64 -> arr2 c64) (GS : list (arr3 c64) -> arr2 c64 -> arr2 c64) kk qb (an : res (list nd64 * nd64)) (sy : list nd64 -> nd64 -> res nd64) (kt : list (arr3 c64) -> arr2 c64 -> res nd64),
  1 <= L <= 2 ^ 52 -> 1 <= N <= L -> N <= 41 -> accurate_loggamma flg -> relative_exp fexp -> accurate_exp fexp -> exact_powers fpow J -> j_max L 2 = Ok J ->
  0 <= J_min < J -> (0 <= d <= 1)%R -> (bpow radix2 (-900) <= B <= bpow radix2 780)%R -> accurate64 shaped d O L spin s nside reality ->
  is_harmonic L spin reality (vals2 flm) -> numbers2 B flm -> inv64 O flm L spin s nside reality = Ok f ->
  filters_directional_fp fexp fpow flg J L N J_min (fint 2) spin 0 = Ok (psi, phi) \/ filters_directional_vectorised_fp fexp fpow flg J L N J_min (fint 2) spin 0 = Ok (psi, phi) ->
  (0 <= qb <= / 60)%R -> (forall l, Z.abs spin <= l < L -> (Rabs (dir_total L (vals3 psi) (vals1 phi) J_min J l - 1) <= qb)%R) ->
  (forall a j, J_min <= j <= J -> is_harmonic L spin reality (vals2 a) -> numbers2 (bpow radix2 900) a -> same3 (W a j) (wav64 L (Lj_of L j 2 mr) (Nj_of L j N 2 mr) (L0_of j 2 mr) j psi a)) ->
  (forall a, is_harmonic L spin reality (vals2 a) -> numbers2 (bpow radix2 900) a -> same2 (SC a) (sca64 L phi a (Ls_of L J_min 2 mr))) ->
  0 <= kk <= 2200 -> (forall Ts S, rows (GS Ts S) = L /\ cols (GS Ts S) = 2 * L - 1) ->
  (forall Ts S, (forall j, J_min <= j <= J -> let T := Tnth nd30 J_min Ts j in
       dim0 T = 2 * Nj_of L j N 2 mr - 1 /\ dim1 T = Lj_of L j 2 mr /\ dim2 T = 2 * Lj_of L j 2 mr - 1 /\ numbers3 (bpow radix2 900) T) ->
     (forall j, J_min <= j <= J -> wigner (Lj_of L j 2 mr) (Nj_of L j N 2 mr) (L0_of j 2 mr) (vals3 (Tnth nd30 J_min Ts j))) ->
     rows S = Ls_of L J_min 2 mr /\ cols S = 2 * Ls_of L J_min 2 mr - 1 /\ numbers2 (bpow radix2 900) S -> harmonic (Ls_of L J_min 2 mr) spin (vals2 S) ->
     forall l q, 0 <= l < L -> 0 <= q < 2 * L - 1 -> added L N J_min J mr psi phi Ts S (GS Ts S) kk l q) ->
  ((shaped = true -> sampling_ok s nside) ->
   (forall a, fwd64 O f L spin s nside reality = Ok a -> rows a = L /\ cols a = 2 * L - 1) ->
   an = (a <- fwd64 O f L spin s nside reality ;;
         w <- mapM (fun j => winv64 O (W a j) (Lj_of L j 2 mr) (Nj_of L j N 2 mr) (L0_of j 2 mr) s reality nside) (zrange J_min (J + 1)) ;;
         sc <- inv64 O (SC a) (Ls_of L J_min 2 mr) spin s nside reality ;;
         Ok (w, sc))) ->
  (forall w sc, (shaped = true -> wavelet_shape_check_fp fpow J w sc L N J_min (fint 2) s nside mr = Ok tt) ->
   (forall a, fwd64 O sc (Ls_of L J_min 2 mr) spin s nside reality = Ok a -> rows a = Ls_of L J_min 2 mr /\ cols a = 2 * Ls_of L J_min 2 mr - 1) ->
   (forall j fj T, J_min <= j <= J -> lrd w (j - J_min) = Ok fj -> wfwd64 O fj (Lj_of L j 2 mr) (Nj_of L j N 2 mr) (L0_of j 2 mr) s reality nside = Ok T ->
      dim0 T = 2 * Nj_of L j N 2 mr - 1 /\ dim1 T = Lj_of L j 2 mr /\ dim2 T = 2 * Lj_of L j 2 mr - 1) ->
   sy w sc = (S <- fwd64 O sc (Ls_of L J_min 2 mr) spin s nside reality ;;
              Ts <- mapM (fun j => fj <- lrd w (j - J_min) ;; wfwd64 O fj (Lj_of L j 2 mr) (Nj_of L j N 2 mr) (L0_of j 2 mr) s reality nside) (zrange J_min (J + 1)) ;;
              kt Ts S)) ->
  exists w sc Ts S, let g := GS Ts S in
    an = Ok (w, sc) /\
    sy w sc = kt Ts S /\
    harmonic L spin (vals2 g) /\
    forall l q, 0 <= l < L -> 0 <= q < 2 * L - 1 ->
      finite64 (get2 g l q) /\
      (Cmod (cval (get2 g l q) - cval (get2 flm l q))%C
       <= (qb + bpow radix2 (-39)) * Cmod (cval (get2 flm l q))
          + d * B * (3 * sqrt (IZR (N * (J + 1) * (2 * l + 1))) + 21) + bpow radix2 (-1000))%R.
Proof.
  intros fexp fpow flg O J flm0 f L N J_min spin s nside reality mr shaped d B psi phi Wf SC GS kk qb an sy kt HL HN HN' Hg Hr Hf HP EJ HJ Hd HB (A1 & A2) Hh0 Hn0 Ef0 EF Hqb Htot HW HSC Hkk Hdm HGS Han Hsy.
  pose proof (filt64 fexp fpow flg J L N J_min spin psi phi HL ltac:(lia) Hg Hr Hf HP EJ EF) as HF.
  pose proof (J_le L J HL EJ) as HJ52. destruct (dims L N J_min J spin psi phi HF) as (D0 & D1 & D2 & D3 & _).
  pose proof (szs fpow L N J mr HL ltac:(lia) HP) as SZ.
  assert (Hp : forall j l n, J_min <= j <= J -> 0 <= l < L -> Z.abs n < L -> let z := get3 psi j l (L - 1 + n) in finite64 z /\ exists v, cval z = Cmult (nu N) (RtoC v) /\ fsize (w8 l) v)
    by (intros; apply (size_psi fexp fpow flg J L N J_min spin psi phi); auto; lia).
  assert (Hq : forall l, 0 <= l < L -> is_finite (get1 phi l) = true /\ fsize (w4 l * w4 l) (B2R (get1 phi l)))
    by (intros; apply (size_phi fexp fpow flg J L N J_min spin psi phi); auto; lia).
  assert (H101 : forall l, Z.abs spin <= l < L -> (99 / 100 <= dir_total L (vals3 psi) (vals1 phi) J_min J l <= 102 / 100)%R)
    by (intros; apply (total101 fexp fpow flg J L N J_min spin psi phi); auto; lia).
  assert (Szj : forall j, J_min <= j <= J -> 0 <= L0_of j 2 mr <= Lj_of L j 2 mr /\ 1 <= Lj_of L j 2 mr <= L /\ 1 <= Nj_of L j N 2 mr <= N /\ Nj_of L j N 2 mr <= Lj_of L j 2 mr + 1)
    by (intros j Hj; exact (Hsz L N J_min J spin mr psi phi HL HN HF j Hj)).
  pose proof (HLs L J_min mr HL) as HLs'.
  (* the recovered harmonic coefficients *)
  assert (R0 : rows flm0 = L) by (destruct Hh0 as ((X & _) & _); exact X). assert (C0 : cols flm0 = 2 * L - 1) by (destruct Hh0 as ((_ & X & _) & _); exact X).
  assert (B0 : (0 <= B)%R) by (destruct (Hn0 0 0) as [_ X]; [lia|lia|]; eapply Rle_trans; [apply Cmod_ge_0|exact X]).
  assert (B800 : (bpow radix2 780 <= bpow radix2 800)%R) by (apply bpow_le; lia).
  destruct (A1 L ltac:(lia) flm0 B ltac:(lra) Hh0 Hn0) as (f' & flm & E1 & Shf & E2 & Hh & Nr). assert (f' = f) as -> by congruence. clear E1.
  assert (Hs : shaped = true -> sampling_ok s nside) by (intros X; eapply s2_known; eauto).
  destruct Nr as (NR & NC & Nr). cbn [vals2 rows cols mk2] in NR, NC, Nr.
  assert (dB0 : (0 <= d * B)%R) by (apply Rmult_le_pos; lra). assert (dB1 : (d * B <= B)%R) by (apply Rle_trans with (1 * B)%R; [apply Rmult_le_compat_r; lra|lra]).
  assert (Nrv : forall l q, 0 <= l < L -> 0 <= q < 2 * L - 1 -> (Cmod (cval (get2 flm l q) - cval (get2 flm0 l q))%C <= d * B)%R).
  { intros l q Hl' Hq'. destruct (Nr l q ltac:(lia) ltac:(lia)) as [_ E]. rewrite get2_vals in E by lia. lra. }
  assert (Hn : numbers2 (2 * B) flm).
  { intros l q Hl' Hq'. rewrite NR, R0 in Hl'. rewrite NC, C0 in Hq'. destruct (Nr l q ltac:(lia) ltac:(lia)) as [F _]. split; [exact F|].
    pose proof (add_up _ _ _ (Nrv l q Hl' Hq')). destruct (Hn0 l q ltac:(lia) ltac:(lia)) as [_ X]. lra. }
  pose proof (conj B0 (proj2 HB)) as HBr.
  assert (BWr : (bpow radix2 (-900) <= BW B <= bpow radix2 800)%R) by (split; [unfold BW; pose proof (bpow_ge_0 radix2 (-1072)); lra|apply (BW_rng B HBr)]). assert (Hhh : harmonic L spin (vals2 flm)) by apply Hh.
  pose proof (n900 flm B HBr Hn) as N9.
  set (W := fun j => wav64 L (Lj_of L j 2 mr) (Nj_of L j N 2 mr) (L0_of j 2 mr) j psi flm). set (S0 := sca64 L phi flm (Ls_of L J_min 2 mr)).
  (* wavelet maps *)
  assert (XW : forall j, J_min <= j < J + 1 -> exists y, winv64 O (Wf flm j) (Lj_of L j 2 mr) (Nj_of L j N 2 mr) (L0_of j 2 mr) s reality nside = Ok y /\
     ((shaped = true -> so3_f_shape (Lj_of L j 2 mr) (Nj_of L j N 2 mr) s nside = Ok (nshape64 y)) /\
      exists T, wfwd64 O y (Lj_of L j 2 mr) (Nj_of L j N 2 mr) (L0_of j 2 mr) s reality nside = Ok T /\
        is_wigner (Lj_of L j 2 mr) (Nj_of L j N 2 mr) (L0_of j 2 mr) reality (vals3 T) /\ near3 0 (d * BW B) T (vals3 (W j)))).
  { intros j Hj. destruct (Szj j ltac:(lia)) as (Z1 & Z2 & Z3 & Z4). pose proof (HW flm j ltac:(lia) Hh N9) as SW. fold (W j) in SW.
    destruct (A2 (Lj_of L j 2 mr) (Nj_of L j N 2 mr) (L0_of j 2 mr) ltac:(lia) ltac:(lia) ltac:(lia) (Wf flm j) (BW B)) as (y & T & X1 & X2 & X3 & X4 & X5).
    - exact BWr.
    - rewrite (same3_vals _ _ SW). apply (wav_is L N J_min J spin mr psi phi); auto; lia.
    - apply (same3_numbers _ _ _ SW). exact (wav_size L N J_min J spin mr psi phi HL HN HF Hp flm B Hhh HBr Hn j ltac:(lia)).
    - exists y. split; [exact X1|]. split; [exact X2|]. exists T. rewrite <- (same3_vals _ _ SW). auto. }
  destruct (mapM_ex _ _ J_min (J + 1) ltac:(lia) XW) as (w & Ew & Lw & Hw).
  (* what the synthesis recovers from them *)
  assert (XT : forall j, J_min <= j < J + 1 -> exists T, (fj <- lrd w (j - J_min) ;; wfwd64 O fj (Lj_of L j 2 mr) (Nj_of L j N 2 mr) (L0_of j 2 mr) s reality nside) = Ok T /\
     (is_wigner (Lj_of L j 2 mr) (Nj_of L j N 2 mr) (L0_of j 2 mr) reality (vals3 T) /\ near3 0 (d * BW B) T (vals3 (W j)))).
  { intros j Hj. destruct (Hw j Hj) as (y & _ & (_ & T & X3 & X4 & X5) & El & _). exists T. rewrite El. cbn [bind]. auto. }
  destruct (mapM_ex _ _ J_min (J + 1) ltac:(lia) XT) as (Ts & ETs & _ & HTs).
  pose proof (HSC flm Hh N9) as SSC. fold S0 in SSC.
  destruct (A1 (Ls_of L J_min 2 mr) ltac:(lia) (SC flm) (BW B)) as (sc & Sc & Y1 & Y2 & Y3 & Y4 & Y5).
  { exact BWr. }
  { rewrite (same2_vals _ _ SSC). apply (sca_is L J_min spin mr phi); auto. }
  { apply (same2_numbers _ _ _ SSC). apply (sca_size L N J_min J spin mr psi phi); auto. }
  rewrite (same2_vals _ _ SSC) in Y5.
  assert (TN : forall j, J_min <= j <= J -> is_wigner (Lj_of L j 2 mr) (Nj_of L j N 2 mr) (L0_of j 2 mr) reality (vals3 (Tnth nd30 J_min Ts j)) /\ near3 0 (d * BW B) (Tnth nd30 J_min Ts j) (vals3 (W j))).
  { intros j Hj. destruct (HTs j ltac:(lia)) as (T & _ & X & _ & En). unfold Tnth. erewrite nth_error_nth by exact En. exact X. }
  assert (HT : forall j, J_min <= j <= J -> let T := Tnth nd30 J_min Ts j in wigner (Lj_of L j 2 mr) (Nj_of L j N 2 mr) (L0_of j 2 mr) (vals3 T) /\ near3 0 (d * BW B) T (vals3 (W j))).
  { intros j Hj. destruct (TN j Hj) as [X1 X2]. split; [apply X1|exact X2]. }
  pose proof (conj (proj1 Y4) Y5) as HS.
  set (g := GS Ts Sc). destruct (Hdm Ts Sc) as [Rg Cg]. fold g in Rg, Cg.
  assert (HG : forall l q, 0 <= l < L -> 0 <= q < 2 * L - 1 -> added L N J_min J mr psi phi Ts Sc g kk l q).
  { apply HGS.
    - intros j Hj. apply (T_ok L N J_min J spin mr psi phi) with (flm := flm) (d := d) (B := B) (Ts := Ts); auto; lia.
    - intros j Hj. apply (HT j Hj).
    - apply (S_ok L N J_min J spin mr psi phi) with (flm := flm) (d := d) (B := B) (Sc := Sc); auto; lia.
    - apply HS. }
  exists w, sc, Ts, Sc. intros g'. change g' with g. clear g'. split; [|split; [|split]].
  - rewrite Han by (auto; intros a E; rewrite E2 in E; apply Ok_inj in E; subst a; lia).
    rewrite E2. cbn [bind]. rewrite Ew. cbn [bind]. rewrite Y1. reflexivity.
  - rewrite Hsy.
    + rewrite Y3. cbn [bind]. rewrite ETs. reflexivity.
    + intros Hsh. specialize (Hs Hsh). apply (chk64 fpow J w sc L N J_min s nside mr (szf L N 2 mr) (Ls_of L J_min 2 mr)); auto.
      * intros j. apply (LN_j_ok L j N 2 mr); lra.
      * apply (scal_bandlimit_ok L J_min 2 mr); lra.
      * split; [lia|]. split; [apply Y2, Hsh|]. intros j fj Hj E. unfold szf. destruct (Hw j ltac:(lia)) as (y & _ & (X & _) & El & _). assert (fj = y) as -> by congruence. apply X, Hsh.
    + intros a E. rewrite Y3 in E. apply Ok_inj in E. subst a. destruct Y4 as ((Q1 & Q2 & _) & _). split; [exact Q1|exact Q2].
    + intros j fj T' Hj E1 E3. destruct (Hw j ltac:(lia)) as (y & _ & (_ & T & X3 & ((Q1 & Q2 & Q3 & _) & _) & _) & El & _).
      assert (fj = y) as -> by congruence. assert (T' = T) as -> by congruence. split; [exact Q1|]. split; [exact Q2|exact Q3].
  - split; [exact Rg|]. split; [exact Cg|]. intros l m Hne. unfold vals2 in Hne. cbn [get2 mk2] in Hne.
    destruct (inb (rows g) l && inb (cols g) (L - 1 + m)) eqn:E; [|exfalso; apply Hne; reflexivity].
    apply andb_prop in E as [I1 I2]. apply inb_true in I1, I2. rewrite Rg in I1. rewrite Cg in I2.
    destruct (Z_le_dec (Z.abs spin) l) as [Q1|Q1]; [destruct (Z_le_dec (Z.abs m) l) as [Q2|Q2]|].
    + lia.
    + exfalso. apply Hne. apply (g_zero L N J_min J spin mr psi phi) with (flm := flm) (d := d) (B := B) (Ts := Ts) (Sc := Sc) (kk := kk); auto; lia.
    + exfalso. apply Hne. apply (g_zero L N J_min J spin mr psi phi) with (flm := flm) (d := d) (B := B) (Ts := Ts) (Sc := Sc) (kk := kk); auto; lia.
  - intros l q Hl' Hq'. split; [exact (proj1 (HG l q Hl' Hq'))|].
    set (y := sqrt (IZR (N * (J + 1) * (2 * l + 1)))). assert (Y0 : (0 <= y)%R) by apply sqrt_pos.
    assert (dBY : (0 <= d * B * (3 * y + 21))%R) by (apply Rmult_le_pos; lra). pose proof (bpow_ge_0 radix2 (-1000)) as T0. pose proof (bpow_ge_0 radix2 (-39)) as T1.
    set (X := Cmod (cval (get2 flm0 l q))). assert (X0 : (0 <= X)%R) by apply Cmod_ge_0.
    assert (QX : (0 <= (qb + bpow radix2 (-39)) * X)%R) by (apply Rmult_le_pos; lra).
    destruct (Z_le_dec (Z.abs spin) l) as [Q1|Q1]; [destruct (Z_le_dec (Z.abs (q - (L - 1))) l) as [Q2|Q2]|].
    2,3: assert (G0 : cval (get2 g l q) = RtoC 0) by (apply (g_zero L N J_min J spin mr psi phi) with (flm := flm) (d := d) (B := B) (Ts := Ts) (Sc := Sc) (kk := kk); auto; lia).
    2,3: assert (F0 : cval (get2 flm0 l q) = RtoC 0) by (destruct (Ceq0_dec (cval (get2 flm0 l q))) as [E|Hne]; [exact E|exfalso]; destruct Hh0 as ((_ & _ & W0) & _); specialize (W0 l (q - (L - 1)));
           replace (L - 1 + (q - (L - 1))) with q in W0 by lia; rewrite get2_vals in W0 by lia; apply W0 in Hne; lia).
    2,3: rewrite G0, F0; replace (RtoC 0 - RtoC 0)%C with (RtoC 0) by ring; rewrite Cmod_0; lra.
    pose proof (g_near L N J_min J spin mr psi phi HL HN HN' ltac:(lia) HF Hp Hq flm d B Hhh HBr Hd Hn Ts Sc g kk Hkk HT HS HG l q Hl' Hq' (conj Q1 Q2) (H101 l ltac:(lia))) as G.
    fold y in G. pose proof (Htot l ltac:(lia)) as T. set (D := dir_total L (vals3 psi) (vals1 phi) J_min J l) in *.
    pose proof (Nrv l q Hl' Hq') as E. pose proof (add_up _ _ _ E) as M. fold X in M. set (X1 := Cmod (cval (get2 flm l q))) in *. assert (X1p : (0 <= X1)%R) by apply Cmod_ge_0.
    change (bpow radix2 (-40)) with (/ 1099511627776)%R in G.
    assert (K : (Cmod ((RtoC D - RtoC 1) * cval (get2 flm l q))%C <= qb * X1)%R).
    { rewrite Cmod_mult. fold X1. apply Rmult_le_compat_r; [exact X1p|]. rewrite <- RtoC_minus, Cmod_R. exact T. }
    replace (cval (get2 g l q) - cval (get2 flm0 l q))%C with ((cval (get2 g l q) - RtoC D * cval (get2 flm l q)) + ((RtoC D - RtoC 1) * cval (get2 flm l q) + (cval (get2 flm l q) - cval (get2 flm0 l q))))%C by ring.
    eapply Rle_trans; [apply Cmod_triangle|]. eapply Rle_trans; [apply Rplus_le_compat_l, Cmod_triangle|].
    change (bpow radix2 (-39)) with (/ 549755813888)%R.
    assert (T2 : (bpow radix2 (-1001) <= bpow radix2 (-1000))%R) by (apply bpow_le; lia).
    assert (QX1 : ((qb + / 1099511627776) * X1 <= (qb + / 1099511627776) * X + / 50 * (d * B))%R).
    { apply Rle_trans with ((qb + / 1099511627776) * (X + d * B))%R; [apply Rmult_le_compat_l; lra|]. rewrite Rmult_plus_distr_l. apply Rplus_le_compat_l. apply Rmult_le_compat_r; lra. }
    assert (QX2 : ((qb + / 1099511627776) * X <= (qb + / 549755813888) * X)%R) by (apply Rmult_le_compat_r; lra).
    set (V := (d * B)%R) in *. assert (VY : (0 <= V * y)%R) by (apply Rmult_le_pos; lra).
    replace (V * (3 * y + 21))%R with (3 * (V * y) + 21 * V)%R by ring. replace (V * (12 / 5 * y + 196 / 10))%R with (12 / 5 * (V * y) + 196 / 10 * V)%R in G by field.
    replace ((qb + / 1099511627776) * X1)%R with (qb * X1 + / 1099511627776 * X1)%R in QX1 by ring.
    lra.
Qed.
Lemma rt_gen : forall fexp fpow flg O J flm f L N J_min spin s nside reality mr shaped d B psi phi (W : arr2 c64 -> Z -> arr3 c64) (SC : arr2 c64 -> arr2 c64) (GS : list (arr3 c64) -> arr2 c64 -> arr2 c64) kk qb (an : res (list nd64 * nd64)) (sy : list nd64 -> nd64 -> res nd64),
  1 <= L <= 2 ^ 52 -> 1 <= N <= L -> N <= 41 -> accurate_loggamma flg -> relative_exp fexp -> accurate_exp fexp -> exact_powers fpow J -> j_max L 2 = Ok J ->
  0 <= J_min < J -> (0 <= d <= 1)%R -> (bpow radix2 (-900) <= B <= bpow radix2 780)%R -> accurate64 shaped d O L spin s nside reality ->
  is_harmonic L spin reality (vals2 flm) -> numbers2 B flm -> inv64 O flm L spin s nside reality = Ok f ->
  filters_directional_fp fexp fpow flg J L N J_min (fint 2) spin 0 = Ok (psi, phi) \/ filters_directional_vectorised_fp fexp fpow flg J L N J_min (fint 2) spin 0 = Ok (psi, phi) ->
  (0 <= qb <= / 60)%R -> (forall l, Z.abs spin <= l < L -> (Rabs (dir_total L (vals3 psi) (vals1 phi) J_min J l - 1) <= qb)%R) ->
  (forall a j, J_min <= j <= J -> is_harmonic L spin reality (vals2 a) -> numbers2 (bpow radix2 900) a -> same3 (W a j) (wav64 L (Lj_of L j 2 mr) (Nj_of L j N 2 mr) (L0_of j 2 mr) j psi a)) ->
  (forall a, is_harmonic L spin reality (vals2 a) -> numbers2 (bpow radix2 900) a -> same2 (SC a) (sca64 L phi a (Ls_of L J_min 2 mr))) ->
  0 <= kk <= 2200 -> (forall Ts S, rows (GS Ts S) = L /\ cols (GS Ts S) = 2 * L - 1) ->
  (forall Ts S, (forall j, J_min <= j <= J -> let T := Tnth nd30 J_min Ts j in
       dim0 T = 2 * Nj_of L j N 2 mr - 1 /\ dim1 T = Lj_of L j 2 mr /\ dim2 T = 2 * Lj_of L j 2 mr - 1 /\ numbers3 (bpow radix2 900) T) ->
     (forall j, J_min <= j <= J -> wigner (Lj_of L j 2 mr) (Nj_of L j N 2 mr) (L0_of j 2 mr) (vals3 (Tnth nd30 J_min Ts j))) ->
     rows S = Ls_of L J_min 2 mr /\ cols S = 2 * Ls_of L J_min 2 mr - 1 /\ numbers2 (bpow radix2 900) S -> harmonic (Ls_of L J_min 2 mr) spin (vals2 S) ->
     forall l q, 0 <= l < L -> 0 <= q < 2 * L - 1 -> added L N J_min J mr psi phi Ts S (GS Ts S) kk l q) ->
  ((shaped = true -> sampling_ok s nside) ->
   (forall a, fwd64 O f L spin s nside reality = Ok a -> rows a = L /\ cols a = 2 * L - 1) ->
   an = (a <- fwd64 O f L spin s nside reality ;;
         w <- mapM (fun j => winv64 O (W a j) (Lj_of L j 2 mr) (Nj_of L j N 2 mr) (L0_of j 2 mr) s reality nside) (zrange J_min (J + 1)) ;;
         sc <- inv64 O (SC a) (Ls_of L J_min 2 mr) spin s nside reality ;;
         Ok (w, sc))) ->
  (forall w sc, (shaped = true -> wavelet_shape_check_fp fpow J w sc L N J_min (fint 2) s nside mr = Ok tt) ->
   (forall a, fwd64 O sc (Ls_of L J_min 2 mr) spin s nside reality = Ok a -> rows a = Ls_of L J_min 2 mr /\ cols a = 2 * Ls_of L J_min 2 mr - 1) ->
   (forall j fj T, J_min <= j <= J -> lrd w (j - J_min) = Ok fj -> wfwd64 O fj (Lj_of L j 2 mr) (Nj_of L j N 2 mr) (L0_of j 2 mr) s reality nside = Ok T ->
      dim0 T = 2 * Nj_of L j N 2 mr - 1 /\ dim1 T = Lj_of L j 2 mr /\ dim2 T = 2 * Lj_of L j 2 mr - 1) ->
   sy w sc = (S <- fwd64 O sc (Ls_of L J_min 2 mr) spin s nside reality ;;
              Ts <- mapM (fun j => fj <- lrd w (j - J_min) ;; wfwd64 O fj (Lj_of L j 2 mr) (Nj_of L j N 2 mr) (L0_of j 2 mr) s reality nside) (zrange J_min (J + 1)) ;;
              inv64 O (GS Ts S) L spin s nside reality)) ->
  exists w sc g,
    an = Ok (w, sc) /\
    sy w sc = inv64 O g L spin s nside reality /\
    harmonic L spin (vals2 g) /\
    forall l q, 0 <= l < L -> 0 <= q < 2 * L - 1 ->
      finite64 (get2 g l q) /\
      (Cmod (cval (get2 g l q) - cval (get2 flm l q))%C
       <= (qb + bpow radix2 (-39)) * Cmod (cval (get2 flm l q))
          + d * B * (3 * sqrt (IZR (N * (J + 1) * (2 * l + 1))) + 21) + bpow radix2 (-1000))%R.
Proof.
  intros fexp fpow flg O J flm0 f L N J_min spin s nside reality mr shaped d B psi phi Wf SC GS kk qb an sy HL HN HN' Hg Hr Hf HP EJ HJ Hd HB HA Hh0 Hn0 Ef0 EF Hqb Htot HW HSC Hkk Hdm HGS Han Hsy.
  destruct (rt_gen_at fexp fpow flg O J flm0 f L N J_min spin s nside reality mr shaped d B psi phi Wf SC GS kk qb an sy (fun Ts S => inv64 O (GS Ts S) L spin s nside reality) HL HN HN' Hg Hr Hf HP EJ HJ Hd HB HA Hh0 Hn0 Ef0 EF Hqb Htot HW HSC Hkk Hdm HGS Han Hsy)
    as (w & sc & Ts & S & E1 & E2 & E3 & E4). exists w, sc, (GS Ts S). exact (conj E1 (conj E2 (conj E3 E4))).
Qed.

Lemma rt_core : forall fexp fpow flg fsum O J flm f L N J_min spin s nside reality mr shaped d B psi phi (W : arr2 c64 -> Z -> arr3 c64) (an : res (list nd64 * nd64)) (sy : list nd64 -> nd64 -> res nd64),
  1 <= L <= 2 ^ 52 -> 1 <= N <= L -> N <= 41 -> accurate_loggamma flg -> relative_exp fexp -> accurate_exp fexp -> exact_powers fpow J -> j_max L 2 = Ok J ->
  0 <= J_min < J -> summation fsum -> (0 <= d <= 1)%R -> (bpow radix2 (-900) <= B <= bpow radix2 780)%R -> accurate64 shaped d O L spin s nside reality ->
  is_harmonic L spin reality (vals2 flm) -> numbers2 B flm -> inv64 O flm L spin s nside reality = Ok f ->
  filters_directional_vectorised_fp fexp fpow flg J L N J_min (fint 2) spin 0 = Ok (psi, phi) ->
  (forall a j, J_min <= j <= J -> same3 (W a j) (wav64 L (Lj_of L j 2 mr) (Nj_of L j N 2 mr) (L0_of j 2 mr) j psi a)) ->
  ((shaped = true -> sampling_ok s nside) ->
   (forall a, fwd64 O f L spin s nside reality = Ok a -> rows a = L /\ cols a = 2 * L - 1) ->
   an = (a <- fwd64 O f L spin s nside reality ;;
         w <- mapM (fun j => winv64 O (W a j) (Lj_of L j 2 mr) (Nj_of L j N 2 mr) (L0_of j 2 mr) s reality nside) (zrange J_min (J + 1)) ;;
         sc <- inv64 O (sca64 L phi a (Ls_of L J_min 2 mr)) (Ls_of L J_min 2 mr) spin s nside reality ;;
         Ok (w, sc))) ->
  (forall w sc, (shaped = true -> wavelet_shape_check_fp fpow J w sc L N J_min (fint 2) s nside mr = Ok tt) ->
   (forall a, fwd64 O sc (Ls_of L J_min 2 mr) spin s nside reality = Ok a -> rows a = Ls_of L J_min 2 mr /\ cols a = 2 * Ls_of L J_min 2 mr - 1) ->
   (forall j fj T, J_min <= j <= J -> lrd w (j - J_min) = Ok fj -> wfwd64 O fj (Lj_of L j 2 mr) (Nj_of L j N 2 mr) (L0_of j 2 mr) s reality nside = Ok T ->
      dim0 T = 2 * Nj_of L j N 2 mr - 1 /\ dim1 T = Lj_of L j 2 mr /\ dim2 T = 2 * Lj_of L j 2 mr - 1) ->
   sy w sc = (S <- fwd64 O sc (Ls_of L J_min 2 mr) spin s nside reality ;;
              Ts <- mapM (fun j => fj <- lrd w (j - J_min) ;; wfwd64 O fj (Lj_of L j 2 mr) (Nj_of L j N 2 mr) (L0_of j 2 mr) s reality nside) (zrange J_min (J + 1)) ;;
              inv64 O (syn64 fsum L J_min J (fun j => Lj_of L j 2 mr) (fun j => Nj_of L j N 2 mr) (fun j => L0_of j 2 mr) (Ls_of L J_min 2 mr) psi phi Ts S) L spin s nside reality)) ->
  exists w sc g,
    an = Ok (w, sc) /\
    sy w sc = inv64 O g L spin s nside reality /\
    harmonic L spin (vals2 g) /\
    forall l q, 0 <= l < L -> 0 <= q < 2 * L - 1 ->
      finite64 (get2 g l q) /\
      (Cmod (cval (get2 g l q) - cval (get2 flm l q))%C
       <= (quad_error 2 300 + bpow radix2 (-32)) * Cmod (cval (get2 flm l q))
          + d * B * (3 * sqrt (IZR (N * (J + 1) * (2 * l + 1))) + 21) + bpow radix2 (-1000))%R.
Proof.
  intros fexp fpow flg fsum O J flm0 f L N J_min spin s nside reality mr shaped d B psi phi Wf an sy HL HN HN' Hg Hr Hf HP EJ HJ Hfs Hd HB HA Hh0 Hn0 Ef0 EF HW Han Hsy.
  pose proof (filt64 fexp fpow flg J L N J_min spin psi phi HL ltac:(lia) Hg Hr Hf HP EJ (or_intror EF)) as HF. pose proof (J_le L J HL EJ) as HJ52.
  assert (Hp : forall j l n, J_min <= j <= J -> 0 <= l < L -> Z.abs n < L -> let z := get3 psi j l (L - 1 + n) in finite64 z /\ exists v, cval z = Cmult (nu N) (RtoC v) /\ fsize (w8 l) v)
    by (intros; apply (size_psi fexp fpow flg J L N J_min spin psi phi); auto; lia).
  assert (Hq : forall l, 0 <= l < L -> is_finite (get1 phi l) = true /\ fsize (w4 l * w4 l) (B2R (get1 phi l)))
    by (intros; apply (size_phi fexp fpow flg J L N J_min spin psi phi); auto; lia).
  pose proof quad_err2 as QE. set (qe := quad_error 2 300) in *.
  destruct (rt_gen fexp fpow flg O J flm0 f L N J_min spin s nside reality mr shaped d B psi phi Wf (fun a => sca64 L phi a (Ls_of L J_min 2 mr))
    (fun Ts S => syn64 fsum L J_min J (fun j => Lj_of L j 2 mr) (fun j => Nj_of L j N 2 mr) (fun j => L0_of j 2 mr) (Ls_of L J_min 2 mr) psi phi Ts S)
    (N + J + 8) (qe + bpow radix2 (-33))%R an sy) as (w & sc & g & E1 & E2 & E3 & E4); auto.
  - change (bpow radix2 (-33)) with (/ 8589934592)%R. lra.
  - intros l Hl. pose proof (total64 fexp fpow flg J L N J_min spin psi phi HL ltac:(lia) Hg Hr Hf HP EJ (or_intror EF) l Hl EF) as T. fold qe in T.
    change (bpow radix2 (-47)) with (/ 140737488355328)%R in T. change (bpow radix2 (-33)) with (/ 8589934592)%R in *. apply Rabs_le. lra.
  - intros. apply same2_refl.
  - lia.
  - intros Ts S HT _ HS _ l q Hl Hq'. exact (syn_near L N J_min J spin mr psi phi HL HN HN' ltac:(lia) HF Hp Hq fsum Ts S l q Hfs HT HS Hl Hq').
  - exists w, sc, g. split; [exact E1|]. split; [exact E2|]. split; [exact E3|]. intros l q Hl Hq'. destruct (E4 l q Hl Hq') as [F G]. split; [exact F|].
    eapply Rle_trans; [exact G|]. apply Rplus_le_compat_r, Rplus_le_compat_r. apply Rmult_le_compat_r; [apply Cmod_ge_0|].
    change (bpow radix2 (-33)) with (/ 8589934592)%R. change (bpow radix2 (-39)) with (/ 549755813888)%R. change (bpow radix2 (-32)) with (/ 4294967296)%R. lra.
Qed.
