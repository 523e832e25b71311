(** * The binary64 filters as filters of the exact theory *)

From Coq Require Import ZArith Reals List Bool Lia Lra Psatz.
From Coquelicot Require Import Rcomplements Complex.
From Flocq Require Import Core Relative IEEE754.BinarySingleNaN.
From Verif Require Import Py PyFacts ModelSamples SamplesFacts SamplesProps ModelFilters ModelTransforms FiltersFacts AxisymFacts DirectionFacts DirFilterFacts
  Spec SpecTransforms SpecQuad FiltersProps TransformsFacts BackendFacts LoopFacts ReconFacts RoundFacts SignalProps FrameProps.
From Verif Require Import ModelFloat ModelFloatDir ModelFloatTrans FloatProps SpecFp SpecFpDir SpecFpTrans FloatFacts FloatFilterProps FloatDefault FloatAccProps FloatDirFacts FloatDirProps
  FloatDirFilterProps FloatTransFacts.
From Verif Require Import FloatFacts.
Import ListNotations.
Open Scope Z_scope.

Lemma sumZ_term lo hi f k : lo <= k < hi -> (forall i, lo <= i < hi -> (0 <= f i)%R) -> (f k <= sumZ lo hi f)%R.
Proof.
  intros Hk Hf. rewrite (sumZ_split lo k hi), (sumZ_split k (k + 1) hi) by lia.
  pose proof (sumZ_pos lo k f ltac:(intros; apply Hf; lia)). pose proof (sumZ_pos (k + 1) hi f ltac:(intros; apply Hf; lia)).
  assert (E : sumZ k (k + 1) f = f k) by (rewrite sumZ_S, sumZ_nil by lia; ring). rewrite E. lra.
Qed.
Lemma sumZ_le lo hi f g : (forall i, lo <= i < hi -> (f i <= g i)%R) -> (sumZ lo hi f <= sumZ lo hi g)%R.
Proof.
  intros H. assert (0 <= sumZ lo hi (fun i => g i + - f i))%R by (apply sumZ_pos; intros i Hi; specialize (H i Hi); lra).
  rewrite sumZ_plus in H0. replace (sumZ lo hi (fun i => - f i)%R) with (- sumZ lo hi f)%R in H0; [lra|].
  replace (- sumZ lo hi f)%R with (-1 * sumZ lo hi f)%R by ring. rewrite <- sumZ_mul. apply sumZ_ext. intros. ring.
Qed.

(** the sizes of the default dilation *)
Lemma J_le L J : 1 <= L <= 2 ^ 52 -> j_max L 2 = Ok J -> 0 <= J <= 52.
Proof.
  intros HL EJ. split; [apply (j_max_nonneg L 2 J); auto; [lia|lra]|].
  destruct (j_max_spec L 2 ltac:(lia) ltac:(lra)) as (J' & EJ' & H & _). rewrite EJ in EJ'. apply Ok_inj in EJ'. subst J'.
  destruct (Z_le_gt_dec J 52) as [|G]; [assumption|exfalso].
  assert (B : (bpow radix2 52 <= bpow radix2 (J - 1))%R) by (apply bpow_le; lia).
  rewrite <- (bpow2 (J - 1)) in H || rewrite (bpow2 (J - 1)) in B.
  assert (IZR L <= IZR (2 ^ 52))%R by (apply IZR_le; lia). change (bpow radix2 52) with (IZR (2 ^ 52)) in B. lra.
Qed.
Lemma exact_faithful fpow J i : exact_powers fpow J -> 0 <= i <= J + 1 -> J <= 60 -> faithful_power fpow (fint 2) i.
Proof.
  intros HP Hi HJ. destruct (HP i ltac:(lia)) as [F V]. split; [exact F|]. cbv zeta. left. rewrite V.
  replace (powerRZ (B2R (fint 2)) i) with (bpow radix2 i).
  - symmetry. apply round_generic; [typeclasses eauto|]. apply generic_format_bpow. unfold FLT_exp. lia.
  - rewrite (fint_B2R 2) by lia. apply bpow2 || (symmetry; apply bpow2).
Qed.
Lemma sizes64 fpow L N J j mr : 1 <= L <= 2 ^ 52 -> 1 <= J <= 52 -> exact_powers fpow J -> 0 <= j <= J ->
  LN_j_fp fpow L j N (fint 2) mr = LN_j L j N 2 mr /\ scal_bandlimit_fp fpow L j (fint 2) mr = scal_bandlimit L j 2 mr.
Proof.
  intros HL HJ HP Hj. apply (fp_sizes_int fpow 2 L j N mr); try lia.
  - apply Z.pow_le_mono_r; lia.
  - intros i Hi. apply (exact_faithful fpow J); auto; lia.
Qed.

(** the range of a filter value: zero or not too small, and below one after normalisation *)
Definition frange (w v : R) : Prop := ((v = 0 \/ bpow radix2 (-600) <= v) /\ 0 <= w * v <= 102 / 100)%R.

Lemma out3 {A} `{Zeroed A} n m p (f : Z -> Z -> Z -> A) i j k : ~ (0 <= i < n /\ 0 <= j < m /\ 0 <= k < p) -> get3 (mk3 n m p f) i j k = zero.
Proof.
  simpl. destruct (inb n i) eqn:E1; cbn [andb]; [|auto].
  destruct (inb m j) eqn:E2; cbn [andb]; [|auto].
  destruct (inb p k) eqn:E3; [|auto]. rewrite inb_true in *. tauto.
Qed.
Section F.
Variables (fexp : f64 -> f64) (fpow : f64 -> Z -> f64) (flg : f64 -> f64) (J L N J_min spin : Z) (psi : arr3 c64) (phi : arr1 f64).
Hypothesis HL : 1 <= L <= 2 ^ 52.
Hypothesis HN : 1 <= N <= 41.
Hypothesis Hg : accurate_loggamma flg.
Hypothesis Hr : relative_exp fexp.
Hypothesis Hf : accurate_exp fexp.
Hypothesis HP : exact_powers fpow J.
Hypothesis EJ : j_max L 2 = Ok J.
Hypothesis EF : filters_directional_fp fexp fpow flg J L N J_min (fint 2) spin 0 = Ok (psi, phi) \/
  filters_directional_vectorised_fp fexp fpow flg J L N J_min (fint 2) spin 0 = Ok (psi, phi).

Definition kfacts (kpsi : arr2 f64) (kphi : arr1 f64) : Prop := 0 <= J_min < J /\
  near_dir L N J 0 (Z.abs spin) psi phi kpsi kphi /\
  (forall j l, 0 <= j <= J -> 0 <= l < L -> is_finite (get2 kpsi j l) = true /\ rt (get2 kpsi j l)) /\
  (forall l, 0 <= l < L -> is_finite (get1 kphi l) = true /\ rt (get1 kphi l)) /\
  dim0 psi = J + 1 /\ dim1 psi = L /\ dim2 psi = 2 * L - 1 /\ len1 phi = L /\
  (forall j l q, 0 <= j <= J -> 0 <= l < L -> l < Z.abs spin -> 0 <= q < 2 * L - 1 -> get3 psi j l q = creal (fint 0)) /\
  (forall l, 0 <= l < L -> l < Z.abs spin -> get1 phi l = fint 0).
Lemma kern_vec : filters_directional_vectorised_fp fexp fpow flg J L N J_min (fint 2) spin 0 = Ok (psi, phi) ->
  exists kpsi kphi, filters_axisym_vectorised_fp fexp fpow J L J_min (fint 2) = Ok (kpsi, kphi) /\ kfacts kpsi kphi.
Proof.
  clear EF. intros EF. pose proof EF as EF'. unfold filters_directional_vectorised_fp in EF'. change (negb (0 =? 0)) with false in EF'. cbv iota in EF'.
  apply bind_inv in EF' as ([kpsi kphi] & EA & _). exists kpsi, kphi. split; [exact EA|].
  destruct (axisym_vec_fp_inv _ _ _ _ _ _ _ _ EA) as (HJ & Rp & Cp & Lp & T1 & T2). split; [exact HJ|].
  split; [exact (near_vec fexp fpow flg Hg Hr J L N J_min (fint 2) spin HL HN kpsi kphi psi phi EA EF)|].
  pose proof EA as EK. apply vec_fp_inv in EK as (_ & k & Ek & _ & _ & _ & A & D).
  pose proof (k_lam_ok 2 ltac:(lra) L 300 J ltac:(lia) ltac:(lia) EJ) as Er. set (r := mk2 (J + 2) L (kv 2 300)) in *.
  split; [|split].
  - intros j l Hj Hl. split; [|now apply T1]. rewrite A by lia. destruct (d_acc fexp fpow J L k r ltac:(lia) Hf HP EJ Ek Er j l Hj Hl) as (F & _ & _).
    unfold fclip. destruct (flt _ _) eqn:Nf; [reflexivity|]. apply fsqrt_ok; [exact F|]. apply (flt_false_inv _ (fint 0)) in Nf; [|exact F|reflexivity]. exact Nf.
  - intros l Hl. split; [|now apply T2]. rewrite D by exact Hl. destruct (k_fin fexp fpow J L k r ltac:(lia) Hf HP EJ Ek Er J_min l ltac:(lia) Hl) as (F & P & _). now apply fsqrt_ok.
  - pose proof EF as ED. rewrite (dir_vec_fp_ok fexp fpow flg J L N J_min (fint 2) spin kpsi kphi) in ED; auto; try lia; try (left; lia).
    apply Ok_inj in ED. assert (P1 := f_equal fst ED). assert (P2 := f_equal snd ED). cbn [fst snd] in P1, P2. clear ED.
    rewrite <- P1, <- P2. repeat (split; [reflexivity|]). split.
    + intros j l q Hj Hl Hs Hq. rewrite get3_mk by lia. unfold psiv. replace (el_min spin 0 <=? l) with false by (unfold el_min; zb). reflexivity.
    + intros l Hl Hs. rewrite get1_mk by lia. unfold phiv. replace (el_min spin 0 <=? l) with false by (unfold el_min; zb). reflexivity.
Qed.
Lemma kern_loop : filters_directional_fp fexp fpow flg J L N J_min (fint 2) spin 0 = Ok (psi, phi) ->
  exists kpsi kphi, filters_axisym_fp fexp fpow J L J_min (fint 2) = Ok (kpsi, kphi) /\ kfacts kpsi kphi.
Proof.
  clear EF. intros EF. pose proof EF as EF'. unfold filters_directional_fp in EF'.
  apply bind_inv in EF' as (el & _ & EF'). apply bind_inv in EF' as (el2 & _ & EF'). apply bind_inv in EF' as ([kpsi kphi] & EA & _). exists kpsi, kphi. split; [exact EA|].
  destruct (axisym_fp_inv _ _ _ _ _ _ _ _ EA) as (HJ & Rp & Cp & Lp & T1 & T2). split; [exact HJ|].
  destruct (fin2 fexp fpow J L J_min kpsi kphi ltac:(lia) Hf HP EJ (or_introl EA)) as (_ & F2 & F1 & _).
  destruct (loop_fp_inv _ _ _ _ _ _ _ _ EA) as (_ & _ & _ & _ & _ & _ & _ & Z0 & _).
  pose proof (near_loop fexp fpow flg Hg Hr J L N J_min (fint 2) spin HL HN kpsi kphi psi phi EA EF) as [NA NB].
  pose proof EF as ED. rewrite (dir_fp_ok fexp fpow flg J L N J_min (fint 2) spin 0 kpsi kphi) in ED; auto; try lia; try (left; lia).
  apply Ok_inj in ED. assert (P1 := f_equal fst ED). assert (P2 := f_equal snd ED). cbn [fst snd] in P1, P2. clear ED.
  split; [split; [exact NA|]|split; [|split]].
  - intros j l m Hj Hl Hm Fk. destruct (Z_lt_le_dec j J_min) as [Hj'|Hj']; [|apply NB; auto; lia].
    cbv zeta. assert (E : get3 psi j l (L - 1 + m) = creal (fint 0)).
    { rewrite <- P1. rewrite get3_mk by lia. unfold psif. replace (J_min <=? j) with false by zb. reflexivity. }
    rewrite E. split; [reflexivity|]. split; [reflexivity|]. exists 0%R. split; [|apply creal0].
    rewrite Z0 by lia. change (B2R (fint 0)) with 0%R. replace (cpsi l * 0 * Cmod (sd N l m))%R with 0%R by ring.
    split; [lra|]. rewrite !Rmult_0_l. lra.
  - intros j l Hj Hl. split; [|now apply T1]. destruct (Z_lt_le_dec j J_min) as [Hj'|Hj']; [now rewrite Z0 by lia|apply F1; lia].
  - intros l Hl. split; [now apply F2|now apply T2].
  - rewrite <- P1, <- P2. repeat (split; [reflexivity|]). split.
    + intros j l q Hj Hl Hs Hq. rewrite get3_mk by lia. unfold psif. replace (el_min spin 0 <=? l) with false by (unfold el_min; zb). rewrite andb_false_r. reflexivity.
    + intros l Hl Hs. rewrite get1_mk by lia. unfold phif. replace (el_min spin 0 <=? l) with false by (unfold el_min; zb). reflexivity.
Qed.
Lemma kern : exists kpsi kphi, (filters_axisym_fp fexp fpow J L J_min (fint 2) = Ok (kpsi, kphi) \/ filters_axisym_vectorised_fp fexp fpow J L J_min (fint 2) = Ok (kpsi, kphi)) /\
  kfacts kpsi kphi.
Proof.
  destruct EF as [E|E]; [destruct (kern_loop E) as (a & b & A & B)|destruct (kern_vec E) as (a & b & A & B)]; exists a, b; auto.
Qed.
Lemma apx0 e x : apx e x 0 -> x = 0%R.
Proof. intros (_ & A & B). rewrite Rmult_0_l in A, B. lra. Qed.
Lemma apx_low e x y k : (0 <= e <= 1)%R -> apx e x y -> (y = 0 \/ bpow radix2 (k + 2) <= y)%R -> (x = 0 \/ bpow radix2 k <= x)%R.
Proof.
  intros He H [-> |Hy]; [left; eapply apx0, H|right]. destruct H as (A & B & _). apply Rle_trans with (2 := B).
  assert (E1 : (exp e <= 4)%R) by (apply Rle_trans with (2 := exp1_4), exp_mono; lra).
  assert (E2 : (/ 4 <= exp (- e))%R) by (rewrite exp_Ropp; apply Rinv_le_contravar; [apply exp_pos|exact E1]).
  apply Rle_trans with (bpow radix2 (k + 2) * / 4)%R; [|apply Rmult_le_compat; auto; [apply bpow_ge_0|lra]].
  change (/ 4)%R with (bpow radix2 (-2)). rewrite <- bpow_plus. apply bpow_le. lia.
Qed.

(** ranges *)
Lemma psi_rng j l n : 0 <= j <= J -> 0 <= l < L -> Z.abs n < L -> let z := get3 psi j l (L - 1 + n) in
  finite64 z /\ exists v, (0 <= v)%R /\ (v = 0 \/ bpow radix2 (-600) <= v)%R /\ cval z = Cmult (nu N) (RtoC v).
Proof.
  intros Hj Hl Hn z. destruct kern as (kpsi & kphi & EA & HJ & [_ NB] & K1 & _ & _ & _ & _ & _ & Z1 & _). pose proof u1_pos.
  destruct (Z_lt_le_dec l (Z.abs spin)) as [Hs|Hs].
  - unfold z. rewrite Z1 by lia. split; [now split|]. exists 0%R. split; [lra|]. split; [now left|]. apply creal0.
  - destruct (K1 j l Hj Hl) as [F T]. destruct (NB j l n Hj ltac:(lia) Hn F) as (A & B & v & C & D). split; [split; [exact A|exact B]|].
    exists v. split; [exact (apx_nonneg _ _ _ C)|]. split; [|exact D].
    apply (apx_low (13 / 2 * u1)%R v (cpsi l * B2R (get2 kpsi j l) * Cmod (sd N l n))%R (-600)); [lra|exact C|].
    destruct (rt_range _ T F) as [[E|E] _]; [left; rewrite E; ring|].
    unfold sd. destruct (Z.leb_spec 1 l); cbn [andb]; [|left; rewrite Cmod_0; ring].
    destruct (Z.leb_spec (Z.abs n) l); cbn [andb]; [|left; rewrite Cmod_0; ring]. destruct (dmask N n) eqn:Dm; [|left; rewrite Cmod_0; ring]. right.
    rewrite Cmod_mult, Cmod_nu, Cmod_R, Rabs_pos_eq, Rmult_1_l by apply sqrt_pos.
    destruct (dsq_lb N l n HN ltac:(lia) ltac:(lia) Dm) as [DL _]. pose proof (cpsi_rng l ltac:(lia)) as [CL _].
    change (-600 + 2) with (-598). apply Rle_trans with (bpow radix2 (-10) * bpow radix2 (-537) * bpow radix2 (-20))%R.
    + rewrite <- !bpow_plus. apply bpow_le. lia.
    + pose proof (bpow_ge_0 radix2 (-10)). pose proof (bpow_ge_0 radix2 (-537)). pose proof (bpow_ge_0 radix2 (-20)).
      apply Rmult_le_compat; auto; [now apply Rmult_le_pos|]. apply Rmult_le_compat; auto.
Qed.
Lemma phi_rng l : 0 <= l < L -> is_finite (get1 phi l) = true /\ (0 <= B2R (get1 phi l))%R /\ (B2R (get1 phi l) = 0 \/ bpow radix2 (-600) <= B2R (get1 phi l))%R.
Proof.
  intros Hl. destruct kern as (kpsi & kphi & EA & HJ & [NA _] & _ & K2 & _ & _ & _ & _ & _ & Z2). pose proof u1_pos.
  destruct (Z_lt_le_dec l (Z.abs spin)) as [Hs|Hs].
  - rewrite Z2 by lia. split; [reflexivity|]. change (B2R (fint 0)) with 0%R. split; [lra|now left].
  - destruct (K2 l Hl) as [F T]. destruct (NA l ltac:(lia) F) as [A B]. split; [exact A|]. split; [exact (apx_nonneg _ _ _ B)|].
    apply (apx_low (7 / 2 * u1)%R (B2R (get1 phi l)) (cphi l * B2R (get1 kphi l))%R (-600)); [lra|exact B|].
    destruct (rt_range _ T F) as [[E|E] _]; [left; rewrite E; ring|]. right. pose proof (cphi_rng l ltac:(lia)) as [CL _].
    change (-600 + 2) with (-598). apply Rle_trans with (bpow radix2 (-10) * bpow radix2 (-537))%R.
    + rewrite <- !bpow_plus. apply bpow_le. lia.
    + pose proof (bpow_ge_0 radix2 (-10)). pose proof (bpow_ge_0 radix2 (-537)). apply Rmult_le_compat; auto.
Qed.

(** the filters of the exact theory *)
Lemma filt64 : filt L N J_min J spin 2 (vals3 psi) (vals1 phi).
Proof.
  destruct kern as (kpsi & kphi & EA & HJ & [NA NB] & K1 & K2 & D0 & D1 & D2 & Lp & Z1 & Z2). pose proof (J_le L J HL EJ) as HJ'.
  pose proof (exact_incr fpow J ltac:(lia) HP) as HI. pose proof (is_norm fexp Hf) as Hn.
  assert (SP : forall j l n, 0 <= j <= J -> 0 <= l < L -> Z.abs n < L -> get3 (vals3 psi) j l (L - 1 + n) = cval (get3 psi j l (L - 1 + n))).
  { intros j l n Hj Hl Hn'. unfold vals3. now rewrite get3_mk by lia. }
  assert (SH : forall l, 0 <= l < L -> get1 (vals1 phi) l = B2R (get1 phi l)) by (intros l Hl; unfold vals1; now rewrite get1_mk by lia).
  constructor; auto.
  - unfold psi_sh, vals3. cbn [dim0 dim1 dim2 mk3]. auto.
  - intros mr j l n Hj Hl Hn' Hne. rewrite SP in Hne by auto.
    destruct (fp_dirf_support fexp fpow flg J L N J_min (fint 2) spin 0 psi phi HL EF l Hl) as [_ S].
    destruct (S j n Hj Hn' Hne) as (S1 & S2 & _ & S3 & S4 & S5).
    destruct (Nj_facts L j N 2 mr ltac:(lia) ltac:(lra) ltac:(lia)) as (N1 & N2 & _ & Np).
    assert (Ev : Z.even (n - (Nj_of L j N 2 mr - 1)) = true).
    { apply even_mod' in S5. apply even_mod. Z.div_mod_to_equations; lia. }
    destruct mr.
    + assert (R : L0_of j 2 true <= l < Lj_of L j 2 true).
      { destruct (sizes64 fpow L N J j true HL ltac:(lia) HP Hj) as [E1 _]. rewrite (LN_j_ok L j N 2 true) in E1 by (lra || lia).
        apply (fp_support fexp fpow J L N J_min (fint 2) kpsi kphi ltac:(lia) HI Hn EA j l _ _ _ Hj Hl E1).
        intros E0. apply Hne. destruct (K1 j l Hj Hl) as [F _]. destruct (NB j l n Hj ltac:(lia) Hn' F) as (_ & _ & v & C & D). rewrite D.
        rewrite E0 in C. change (B2R (fint 0)) with 0%R in C. replace (cpsi l * 0 * Cmod (sd N l n))%R with 0%R in C by ring. rewrite (apx0 _ _ C). ring. }
      specialize (N1 eq_refl). repeat split; auto; lia.
    + rewrite (N2 eq_refl) in *. unfold Lj_of, L0_of. repeat split; auto; lia.
  - intros mr l Hl Hne. rewrite SH in Hne by exact Hl.
    destruct (fp_dirf_support fexp fpow flg J L N J_min (fint 2) spin 0 psi phi HL EF l Hl) as [S _]. destruct (S Hne) as [S1 _].
    split; [|exact S1]. destruct mr; [|unfold Ls_of; lia].
    destruct (sizes64 fpow L N J J_min true HL ltac:(lia) HP ltac:(lia)) as [_ E1]. rewrite (scal_bandlimit_ok L J_min 2 true) in E1 by (lra || lia).
    apply (fp_support_scal fexp fpow J L J_min (fint 2) kpsi kphi ltac:(lia) HI Hn EA l _ Hl E1).
    intros E0. apply Hne. destruct (K2 l Hl) as [F _]. destruct (NA l ltac:(lia) F) as [_ B]. rewrite E0 in B. change (B2R (fint 0)) with 0%R in B.
    rewrite Rmult_0_r in B. exact (apx0 _ _ B).
  - intros j l n Hj Hl Hn'. replace (L - 1 - n) with (L - 1 + - n) by lia. rewrite !SP by lia. replace (L - 1 + - n) with (L - 1 - n) by lia.
    rewrite (fp_dirf_even fexp fpow flg J L N J_min (fint 2) spin 0 psi phi Hg Hr HL HN EF j l n Hj Hl Hn').
    destruct (psi_rng j l n Hj Hl Hn') as (_ & v & _ & _ & V). destruct (Ceq0_dec (cval (get3 psi j l (L - 1 + n)))) as [E|Hne].
    { rewrite E, Cconj_RtoC. ring. }
    destruct (fp_dirf_support fexp fpow flg J L N J_min (fint 2) spin 0 psi phi HL EF l Hl) as [_ S].
    destruct (S j n Hj Hn' Hne) as (_ & _ & _ & _ & _ & S5). rewrite V. unfold nu, sign_of.
    rewrite Zmod_even. destruct (Z.even N) eqn:EN; cbn [negb Z.eqb].
    + assert (En : Z.even n = false) by (rewrite Z.even_sub, Z.even_sub, EN in S5; cbn in S5; destruct (Z.even n); auto).
      fold (sign_of n). rewrite sign_msgn. unfold msgn. rewrite En. apply injective_projections; cbn; ring.
    + assert (En : Z.even n = true) by (rewrite Z.even_sub, Z.even_sub, EN in S5; cbn in S5; destruct (Z.even n); auto).
      fold (sign_of n). rewrite sign_msgn. unfold msgn. rewrite En. apply injective_projections; cbn; ring.
  - intros j l q Hq. unfold vals3. apply out3. lia.
Qed.
End F.
