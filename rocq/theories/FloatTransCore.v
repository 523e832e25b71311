(** * Errors of the entries of the binary64 transforms *)

From Coq Require Import ZArith Reals List Bool Permutation Lia Lra Psatz.
From Coquelicot Require Import Rcomplements Complex.
From Flocq Require Import Core Relative IEEE754.BinarySingleNaN.
From Verif Require Import Py PyFacts ModelSamples SamplesFacts ModelFilters ModelTransforms FiltersFacts AxisymFacts DirectionFacts DirFilterFacts
  Spec SpecTransforms SpecQuad FiltersProps TransformsFacts BackendFacts LoopFacts ReconFacts RoundFacts SignalProps FrameProps.
From Verif Require Import ModelFloat ModelFloatDir ModelFloatTrans FloatProps SpecFp SpecFpDir SpecFpTrans FloatFilterProps FloatDefault FloatAccProps FloatDirFacts FloatDirProps
  FloatDirFilterProps FloatSpinProps FloatTransFacts FloatTransFilt FloatTransErr.
From Verif Require Import FloatFacts.
Import ListNotations.
Open Scope Z_scope.

(** ** weights *)
Definition w8 (l : Z) : R := (8 * PI ^ 2 / (2 * IZR l + 1))%R.
Definition w4 (l : Z) : R := sqrt (4 * PI / (2 * IZR l + 1)).
Lemma l21 l : IZR (2 * l + 1) = (2 * IZR l + 1)%R.
Proof. rewrite plus_IZR, mult_IZR. reflexivity. Qed.
Lemma w_rng l x : 0 <= l < 2 ^ 52 -> (1 <= x <= 256)%R -> (bpow radix2 (-53) <= x / (2 * IZR l + 1) <= bpow radix2 10)%R.
Proof.
  intros Hl Hx. pose proof (l_rng l Hl) as R. rewrite l21 in R. set (y := (2 * IZR l + 1)%R) in *. split.
  - replace (bpow radix2 (-53)) with (1 / bpow radix2 53)%R by (change (-53) with (- (53)); rewrite bpow_opp; field; apply Rgt_not_eq, bpow_gt_0).
    apply Rmult_le_compat; try lra; [left; apply Rinv_0_lt_compat, bpow_gt_0|]. apply Rinv_le_contravar; lra.
  - apply Rle_trans with (256 / 1)%R; [|change (bpow radix2 10) with 1024%R; lra]. apply Rmult_le_compat; try lra; [left; apply Rinv_0_lt_compat; lra|].
    apply Rinv_le_contravar; lra.
Qed.
Lemma w8_rng l : 0 <= l < 2 ^ 52 -> (bpow radix2 (-53) <= w8 l <= bpow radix2 10)%R.
Proof. intros Hl. apply w_rng; [exact Hl|]. pose proof pi8_rng. replace (8 * PI ^ 2)%R with (8 * PI * PI)%R by ring. lra. Qed.
Lemma w4_rng l : 0 <= l < 2 ^ 52 -> (bpow radix2 (-53) <= w4 l <= bpow radix2 10)%R.
Proof. intros Hl. unfold w4. apply sqrt_rng; try lia. apply w_rng; [exact Hl|]. pose proof pi34. lra. Qed.
Lemma w8f_fa l : 0 <= l < 2 ^ 52 -> fa (5 * u1) (w8f l) (w8 l).
Proof.
  intros Hl. pose proof u1_pos. pose proof pi34. pose proof pi8_rng. pose proof (l_rng l Hl) as R. unfold w8f.
  assert (A : fa (3 * u1) (fmul fpi fpi) (PI * PI)).
  { apply fa_weak with (u1 + u1 + u1)%R; [lra|]. apply fa_mul; [lra|apply fa_pi|apply fa_pi|].
    apply (nr _ 0 10); try lia. change (bpow radix2 0) with 1%R. change (bpow radix2 10) with 1024%R. split; nra. }
  assert (B : fa (4 * u1) (fmul (fint 8) (fmul fpi fpi)) (8 * (PI * PI))).
  { apply fa_weak with (0 + 3 * u1 + u1)%R; [lra|]. apply fa_mul; [lra|apply (fa_int 8); lia|exact A|].
    apply (nr _ 0 10); try lia. change (bpow radix2 0) with 1%R. change (bpow radix2 10) with 1024%R. lra. }
  replace (w8 l) with (8 * (PI * PI) / IZR (2 * l + 1))%R by (unfold w8; rewrite l21; f_equal; ring).
  apply fa_weak with (4 * u1 + 0 + u1)%R; [lra|]. apply fa_div; [lra|exact B|apply fa_int; lia|lra|].
  apply (nr _ (-53) 10); try lia. rewrite l21. apply w_rng; [exact Hl|]. lra.
Qed.
Lemma w4f_fa l : 0 <= l < 2 ^ 52 -> fa (5 / 2 * u1) (w4f l) (w4 l).
Proof.
  intros Hl. pose proof u1_pos. pose proof pi34. pose proof (l_rng l Hl) as R. unfold w4f, w4.
  assert (A : fa (2 * u1) (fmul (fint 4) fpi) (4 * PI)).
  { apply fa_weak with (0 + u1 + u1)%R; [lra|]. apply fa_mul; [lra|apply (fa_int 4); lia|apply fa_pi|].
    apply (nr _ 0 10); try lia. change (bpow radix2 0) with 1%R. change (bpow radix2 10) with 1024%R. lra. }
  assert (B : fa (3 * u1) (fdiv (fmul (fint 4) fpi) (fint (2 * l + 1))) (4 * PI / (2 * IZR l + 1))).
  { rewrite <- l21. apply fa_weak with (2 * u1 + 0 + u1)%R; [lra|]. apply fa_div; [lra|exact A|apply fa_int; lia|lra|].
    apply (nr _ (-53) 10); try lia. rewrite l21. apply w_rng; [exact Hl|]. lra. }
  apply fa_weak with (3 * u1 / 2 + u1)%R; [lra|]. apply fa_sqrt; [lra|exact B|].
  apply (nr _ (-53) 10); try lia. now apply w4_rng.
Qed.
Lemma w4_sq l : 0 <= l -> (w4 l * w4 l = 4 * PI / (2 * IZR l + 1))%R.
Proof.
  intros Hl. unfold w4. apply sqrt_sqrt. pose proof pi34. assert (0 <= IZR l)%R by now apply IZR_le.
  apply Rmult_le_pos; [lra|left; apply Rinv_0_lt_compat; lra].
Qed.

(** ** sizes of the values *)
(** v is a filter value as the code computes them: zero or not tiny, and w v^2 <= 101/100 *)
Definition fsize (w v : R) : Prop := ((0 <= v) /\ (v = 0 \/ bpow radix2 (-600) <= v) /\ w * (v * v) <= 102 / 100)%R.
Lemma fsize_le l v : 0 <= l < 2 ^ 52 -> fsize (w8 l) v -> (v <= bpow radix2 30 /\ w8 l * v <= 32)%R.
Proof.
  intros Hl (A & _ & B). pose proof (w8_rng l Hl) as [W1 W2]. pose proof pi8_rng as P8. split.
  - apply Rsqr_incr_0_var; [|apply bpow_ge_0]. unfold Rsqr. rewrite <- bpow_plus. change (30 + 30) with 60.
    apply Rmult_le_reg_l with (bpow radix2 (-53)); [apply bpow_gt_0|]. rewrite <- bpow_plus. change (-53 + 60) with 7. change (bpow radix2 7) with 128%R.
    apply Rle_trans with (w8 l * (v * v))%R; [|lra]. apply Rmult_le_compat_r; [nra|exact W1].
  - assert (0 < w8 l)%R by (eapply Rlt_le_trans; [apply bpow_gt_0|exact W1]). apply Rsqr_incr_0_var; [|lra]. unfold Rsqr. change (bpow radix2 10) with 1024%R in W2.
    assert (W3 : (w8 l <= 256)%R).
    { unfold w8. replace (8 * PI ^ 2)%R with (8 * PI * PI)%R by ring. pose proof (l_rng l Hl) as R. rewrite l21 in R.
      apply Rle_trans with (8 * PI * PI / 1)%R; [|lra]. apply Rmult_le_compat_l; [lra|]. apply Rinv_le_contravar; lra. }
    replace (w8 l * v * (w8 l * v))%R with (w8 l * (w8 l * (v * v)))%R by ring. assert (0 <= w8 l * (v * v))%R by (apply Rmult_le_pos; nra). nra.
Qed.
Lemma Cmod_conj z : Cmod (Cconj z) = Cmod z.
Proof. unfold Cmod, Cconj. cbn [fst snd]. f_equal. ring. Qed.
Lemma cmod_nu N : Cmod (nu N) = 1%R. Proof. apply Cmod_nu. Qed.
Lemma cmod_psi N v z : (0 <= v)%R -> cval z = Cmult (nu N) (RtoC v) -> Cmod (cval z) = v.
Proof. intros Hv ->. rewrite Cmod_mult, cmod_nu, Cmod_R, Rabs_pos_eq by exact Hv. ring. Qed.

(** conj(psi) times the weight *)
Lemma cp_entry N l v z : 0 <= l < 2 ^ 52 -> finite64 z -> cval z = Cmult (nu N) (RtoC v) -> fsize (w8 l) v ->
  let p := cmul (cconj64 z) (creal (w8f l)) in
  finite64 p /\ cval p = cm (Cconj (cval z)) (RtoC (B2R (w8f l))) /\
  (Cmod (cval p - RtoC (w8 l) * Cconj (cval z))%C <= 51 / 4 * eps * (w8 l * v))%R /\ (Cmod (cval p) <= 33)%R.
Proof.
  intros Hl Fz Vz Hv p. pose proof eps_pos. pose proof u1_pos. destruct (fsize_le l v Hl Hv) as [U1 U2]. destruct Hv as (V0 & V1 & _).
  destruct (w8f_fa l Hl) as [Fw Aw]. pose proof (w8_rng l Hl) as [W1 W2]. pose proof (bpow_gt_0 radix2 (-53)).
  pose proof (apx_nonneg _ _ _ Aw) as Wn.
  assert (Wv : (0 <= w8 l * v)%R) by (apply Rmult_le_pos; lra).
  assert (Wf : (B2R (w8f l) <= bpow radix2 12)%R).
  { destruct Aw as (_ & _ & A). eapply Rle_trans; [exact A|]. apply Rle_trans with (bpow radix2 10 * 4)%R.
    - apply Rmult_le_compat; try lra; [left; apply exp_pos|]. apply Rle_trans with (2 := exp1_4), exp_mono. lra.
    - change (bpow radix2 10) with 1024%R. change (bpow radix2 12) with 4096%R. lra. }
  destruct (cmul_val (cconj64 z) (creal (w8f l))) as (F & E & _).
  { now apply cconj64_fin. } { now apply fin_creal. }
  { rewrite cconj64_val, Cmod_conj, (cmod_psi N v z V0 Vz), cval_creal, Cmod_R, Rabs_pos_eq by exact Wn.
    apply Rle_trans with (bpow radix2 30 * bpow radix2 12)%R; [apply Rmult_le_compat; auto|]. rewrite <- bpow_plus. apply bpow_le. lia. }
  fold p in F, E. rewrite cconj64_val, cval_creal in E. split; [exact F|]. split; [exact E|].
  set (w := B2R (w8f l)) in *.
  assert (X : cval p = Cmult (Cconj (nu N)) (RtoC (rnd (w * v)))).
  { rewrite E, cm_real, Vz. unfold nu. destruct (negb (N mod 2 =? 0)); cbn [fst snd Cmult Cconj RtoC Ci]; apply injective_projections; cbn [fst snd Cmult Cconj RtoC Ci].
    - transitivity (rnd (w * v)); [f_equal; ring|ring].
    - transitivity (rnd 0); [f_equal; ring|]. rewrite rnd_0. ring.
    - transitivity (rnd 0); [f_equal; ring|]. rewrite rnd_0. ring.
    - transitivity (rnd (- (w * v))); [f_equal; ring|]. rewrite rnd_opp. ring. }
  assert (A : apx (6 * u1) (rnd (w * v)) (w8 l * v)).
  { apply apx_weak with (u1 + (5 * u1 + 0))%R; [lra|]. assert (M : apx (5 * u1 + 0) (w * v) (w8 l * v)) by (apply apx_mul; [exact Aw|apply apx_refl; lra]).
    apply apx_trans with (2 := M). apply apx_rnd. destruct V1 as [-> |V1]; [left; ring|right].
    apply Rle_trans with (bpow radix2 (-55) * bpow radix2 (-600))%R; [rewrite <- bpow_plus; apply bpow_le; lia|].
    apply Rmult_le_compat; try apply bpow_ge_0; auto. destruct Aw as (_ & A & _). eapply Rle_trans; [|exact A].
    change (-55) with (-53 + -2). rewrite bpow_plus. apply Rmult_le_compat; try apply bpow_ge_0; auto.
    change (bpow radix2 (-2)) with (/ 4)%R. rewrite exp_Ropp. apply Rinv_le_contravar; [apply exp_pos|]. apply Rle_trans with (2 := exp1_4), exp_mono. lra. }
  assert (H6 : (0 <= 6 * u1 <= / 2)%R) by lra. pose proof (apx_abs _ _ _ H6 A) as D.
  assert (D' : (Rabs (rnd (w * v) - w8 l * v) <= 51 / 4 * eps * (w8 l * v))%R).
  { eapply Rle_trans; [exact D|]. apply Rmult_le_compat_r; [exact Wv|]. unfold u1. lra. }
  assert (CN : Cmod (Cconj (nu N)) = 1%R) by (rewrite Cmod_conj; apply cmod_nu).
  split.
  - rewrite X, Vz, Cmult_conj. replace (Cconj (RtoC v)) with (RtoC v) by (symmetry; apply Cconj_RtoC).
    replace (Cconj (nu N) * RtoC (rnd (w * v)) - RtoC (w8 l) * (Cconj (nu N) * RtoC v))%C with (Cconj (nu N) * RtoC (rnd (w * v) - w8 l * v))%C by (rewrite RtoC_minus, RtoC_mult; ring).
    rewrite Cmod_mult, CN, Cmod_R, Rmult_1_l. exact D'.
  - rewrite X, Cmod_mult, CN, Cmod_R, Rmult_1_l. replace (rnd (w * v)) with ((rnd (w * v) - w8 l * v) + w8 l * v)%R by ring.
    eapply Rle_trans; [apply Rabs_triang|]. rewrite (Rabs_pos_eq (w8 l * v)) by exact Wv.
    assert (51 / 4 * eps * (w8 l * v) <= 51 / 4 * / 1000000 * 32)%R by (apply Rmult_le_compat; lra). lra.
Qed.

(** an entry of the wavelet coefficients *)
Lemma wav_entry N l v z f : 0 <= l < 2 ^ 52 -> finite64 z -> cval z = Cmult (nu N) (RtoC v) -> fsize (w8 l) v ->
  finite64 f -> (Cmod (cval f) <= bpow radix2 900)%R ->
  let e := cmul f (cmul (cconj64 z) (creal (w8f l))) in
  let b := Cmult (RtoC (w8 l)) (Cmult (cval f) (Cconj (cval z))) in
  finite64 e /\ cval e = cm (cval f) (cm (Cconj (cval z)) (RtoC (B2R (w8f l)))) /\
  (Cmod (cval e - b)%C <= bpow radix2 (-49) * Cmod b + bpow radix2 (-1073))%R.
Proof.
  intros Hl Fz Vz Hv Ff Bf e b. destruct (cp_entry N l v z Hl Fz Vz Hv) as (Fp & Ep & Dp & Bp). set (p := cmul (cconj64 z) (creal (w8f l))) in *.
  pose proof eps_pos. pose proof (w8_rng l Hl) as [W1 _]. pose proof (bpow_gt_0 radix2 (-53)). pose proof (Cmod_ge_0 (cval f)) as F0. pose proof (Cmod_ge_0 (cval p)).
  destruct (fsize_le l v Hl Hv) as [_ U2]. destruct Hv as (V0 & _ & _).
  assert (Wv : (0 <= w8 l * v)%R) by (apply Rmult_le_pos; lra).
  destruct (cmul_val f p Ff Fp) as (Fe & Ee & De).
  { apply Rle_trans with (bpow radix2 900 * 33)%R; [apply Rmult_le_compat; auto|].
    apply Rle_trans with (bpow radix2 900 * bpow radix2 6)%R; [apply Rmult_le_compat_l; [apply bpow_ge_0|change (bpow radix2 6) with 64%R; lra]|].
    rewrite <- bpow_plus. apply bpow_le. lia. }
  fold e in Fe, Ee, De. split; [exact Fe|]. split; [now rewrite Ee, Ep|].
  assert (Mb : Cmod b = (w8 l * v * Cmod (cval f))%R).
  { unfold b. rewrite !Cmod_mult, Cmod_conj, Cmod_R, Rabs_pos_eq, (cmod_psi N v z V0 Vz) by lra. ring. }
  assert (Pp : (Cmod (cval p) <= (1 + 51 / 4 * eps) * (w8 l * v))%R).
  { replace (cval p) with ((cval p - RtoC (w8 l) * Cconj (cval z)) + RtoC (w8 l) * Cconj (cval z))%C by ring.
    eapply Rle_trans; [apply (Cmod_triangle (cval p - RtoC (w8 l) * Cconj (cval z))%C (RtoC (w8 l) * Cconj (cval z))%C)|].
    rewrite (Cmod_mult (RtoC (w8 l))), Cmod_conj, Cmod_R, Rabs_pos_eq, (cmod_psi N v z V0 Vz) by lra. lra. }
  assert (E : (cval e - b = (cval e - cval f * cval p) + cval f * (cval p - RtoC (w8 l) * Cconj (cval z)))%C) by (unfold b; ring).
  rewrite E. eapply Rle_trans; [apply Cmod_triangle|]. rewrite (Cmod_mult (cval f) (cval p - RtoC (w8 l) * Cconj (cval z))%C), Mb.
  set (F := Cmod (cval f)) in *. set (q := (w8 l * v)%R) in *.
  assert (T1 : (3 * eps * (F * Cmod (cval p)) <= 3 * eps * (F * ((1 + 51 / 4 * eps) * q)))%R).
  { apply Rmult_le_compat_l; [lra|]. apply Rmult_le_compat_l; auto. }
  assert (T2 : (F * Cmod (cval p - RtoC (w8 l) * Cconj (cval z))%C <= F * (51 / 4 * eps * q))%R) by (apply Rmult_le_compat_l; auto).
  assert (Et : (4 * eta = bpow radix2 (-1073))%R) by (unfold eta; change 4%R with (bpow radix2 2); rewrite <- bpow_plus; reflexivity).
  assert (Eb : (bpow radix2 (-49) = 16 * eps)%R) by (change (bpow radix2 (-49)) with (/ 562949953421312)%R; unfold eps; lra).
  rewrite <- Et, Eb. assert (Fq : (0 <= q * F)%R) by (now apply Rmult_le_pos).
  assert (T3 : (3 * eps * (F * ((1 + 51 / 4 * eps) * q)) = 3 * (eps * (q * F)) + 3 * (eps * (q * F)) * (51 / 4 * eps))%R) by ring.
  assert (T4 : (F * (51 / 4 * eps * q) = 51 / 4 * (eps * (q * F)))%R) by ring.
  assert (T5 : (16 * eps * (q * F) = 16 * (eps * (q * F)))%R) by ring. rewrite T3 in T1. rewrite T4 in T2. rewrite T5.
  assert (0 <= eps * (q * F))%R by (apply Rmult_le_pos; lra).
  assert (3 * (eps * (q * F)) * (51 / 4 * eps) <= 3 * (eps * (q * F)) * (51 / 4 * / 1000000))%R by (apply Rmult_le_compat_l; lra).
  lra.
Qed.

(** an entry of the scaling coefficients, analysed or synthesised *)
Lemma sca_entry l x f : 0 <= l < 2 ^ 52 -> is_finite x = true -> fsize (w4 l * w4 l) (B2R x) ->
  finite64 f -> (Cmod (cval f) <= bpow radix2 900)%R ->
  let e := cmul f (creal (fmul x (w4f l))) in let b := Cmult (cval f) (RtoC (w4 l * B2R x)) in
  finite64 e /\ cval e = cm (cval f) (RtoC (B2R (fmul x (w4f l)))) /\ (Cmod (cval e - b)%C <= 11 * eps * Cmod b + 4 * eta)%R /\
  (B2R x = 0%R -> B2R (fmul x (w4f l)) = 0%R).
Proof.
  intros Hl Fx (V0 & V1 & V2) Ff Bf e b. pose proof eps_pos. pose proof u1_pos. pose proof (w4_rng l Hl) as [W1 W2]. pose proof (bpow_gt_0 radix2 (-53)).
  pose proof (Cmod_ge_0 (cval f)) as F0. set (v := B2R x) in *.
  assert (Wv : (0 <= w4 l * v)%R) by (apply Rmult_le_pos; lra).
  assert (U : (w4 l * v <= 2)%R) by (apply Rsqr_incr_0_var; [|lra]; unfold Rsqr; nra).
  assert (NR : norm_range (v * w4 l)).
  { split.
    - destruct V1 as [-> |V1]; [left; ring|right]. apply Rle_trans with (bpow radix2 (-600) * bpow radix2 (-53))%R; [rewrite <- bpow_plus; apply bpow_le; lia|].
      apply Rmult_le_compat; try apply bpow_ge_0; auto.
    - rewrite Rmult_comm. apply Rle_trans with (1 := U). change 2%R with (bpow radix2 1). apply bpow_le. lia. }
  destruct (fa_mul 0 (5 / 2 * u1) x (w4f l) v (w4 l) ltac:(lra)) as [Fq Aq].
  { split; [exact Fx|]. apply apx_refl; lra. } { now apply w4f_fa. } { exact NR. }
  set (q := fmul x (w4f l)) in *. rewrite (Rmult_comm v) in Aq.
  assert (H6 : (0 <= 0 + 5 / 2 * u1 + u1 <= / 2)%R) by lra. pose proof (apx_abs _ _ _ H6 Aq) as D. pose proof (apx_nonneg _ _ _ Aq) as Q0.
  assert (D' : (Rabs (B2R q - w4 l * v) <= 75 / 10 * eps * (w4 l * v))%R).
  { eapply Rle_trans; [exact D|]. apply Rmult_le_compat_r; [exact Wv|]. unfold u1. lra. }
  assert (Q2 : (B2R q <= (1 + 75 / 10 * eps) * (w4 l * v))%R) by (apply Rabs_le_inv in D'; lra).
  assert (Q3 : (B2R q <= 3)%R).
  { eapply Rle_trans; [exact Q2|]. assert (75 / 10 * eps * (w4 l * v) <= 75 / 10 * / 1000000 * 2)%R by (apply Rmult_le_compat; lra). lra. }
  destruct (cmul_val f (creal q) Ff (fin_creal _ Fq)) as (Fe & Ee & De).
  { rewrite cval_creal, Cmod_R, Rabs_pos_eq by exact Q0. apply Rle_trans with (bpow radix2 900 * bpow radix2 2)%R.
    - apply Rmult_le_compat; auto. change (bpow radix2 2) with 4%R. lra.
    - rewrite <- bpow_plus. apply bpow_le. lia. }
  fold e in Fe, Ee, De. rewrite cval_creal in Ee, De. split; [exact Fe|]. split; [exact Ee|]. split.
  2:{ intros E0. fold v in E0. rewrite E0, Rmult_0_r in Aq. now apply apx0 in Aq. }
  assert (Mb : Cmod b = (Cmod (cval f) * (w4 l * v))%R) by (unfold b; rewrite Cmod_mult, Cmod_R, Rabs_pos_eq by exact Wv; reflexivity).
  assert (E : (cval e - b = (cval e - cval f * RtoC (B2R q)) + cval f * RtoC (B2R q - w4 l * v))%C) by (unfold b; rewrite RtoC_minus; ring).
  rewrite E. eapply Rle_trans; [apply Cmod_triangle|]. rewrite (Cmod_mult (cval f) (RtoC (B2R q - w4 l * v))), Mb, Cmod_R.
  rewrite Cmod_R, Rabs_pos_eq in De by exact Q0. set (F := Cmod (cval f)) in *. set (t := (w4 l * v)%R) in *.
  assert (T1 : (3 * eps * (F * B2R q) <= 3 * eps * (F * ((1 + 75 / 10 * eps) * t)))%R) by (apply Rmult_le_compat_l; [lra|]; apply Rmult_le_compat_l; auto).
  assert (T2 : (F * Rabs (B2R q - t) <= F * (75 / 10 * eps * t))%R) by (apply Rmult_le_compat_l; auto).
  assert (Ft : (0 <= eps * (F * t))%R) by (apply Rmult_le_pos; [lra|]; now apply Rmult_le_pos).
  assert (T3 : (3 * eps * (F * ((1 + 75 / 10 * eps) * t)) = 3 * (eps * (F * t)) + 3 * (eps * (F * t)) * (75 / 10 * eps))%R) by ring.
  assert (T4 : (F * (75 / 10 * eps * t) = 75 / 10 * (eps * (F * t)))%R) by ring. rewrite T3 in T1. rewrite T4 in T2.
  replace (11 * eps * (F * t))%R with (11 * (eps * (F * t)))%R by ring.
  assert (3 * (eps * (F * t)) * (75 / 10 * eps) <= 3 * (eps * (F * t)) * (75 / 10 * / 1000000))%R by (apply Rmult_le_compat_l; lra). lra.
Qed.

(** ** sums of products *)
Definition clist (l : list C) : C := fold_right Cplus (RtoC 0) l.
Lemma clist_zrange f lo hi : clist (map f (zrange lo hi)) = csumZ lo hi f.
Proof. unfold clist, csumZ, zrange. rewrite map_map. reflexivity. Qed.
Lemma lsum_RtoC (f : Z -> R) is : RtoC (lsum (map f is)) = clist (map (fun i => RtoC (f i)) is).
Proof. induction is as [|i is IH]; [reflexivity|]. cbn [map]. change (lsum (f i :: map f is)) with (f i + lsum (map f is))%R. rewrite RtoC_plus, IH. reflexivity. Qed.
Lemma lsum_map_le (f g : Z -> R) is : (forall i, In i is -> f i <= g i)%R -> (lsum (map f is) <= lsum (map g is))%R.
Proof.
  induction is as [|i is IH]; intros H; cbn; [lra|]. change (fold_right Rplus 0%R (map f is)) with (lsum (map f is)). change (fold_right Rplus 0%R (map g is)) with (lsum (map g is)).
  pose proof (H i (or_introl eq_refl)). specialize (IH (fun k Hk => H k (or_intror Hk))). lra.
Qed.
Lemma lsum_map_pos (f : Z -> R) is : (forall i, In i is -> 0 <= f i)%R -> (0 <= lsum (map f is))%R.
Proof. intros H. apply lsum_pos. intros x Hx. apply in_map_iff in Hx as (y & <- & Hy). now apply H. Qed.
Lemma clist_le (f : Z -> C) is : (Cmod (clist (map f is)) <= lsum (map (fun i => Cmod (f i)) is))%R.
Proof.
  induction is as [|i is IH]; [cbn; rewrite Cmod_0; lra|]. cbn [map]. change (clist (f i :: map f is)) with (f i + clist (map f is))%C.
  change (lsum (Cmod (f i) :: map (fun i => Cmod (f i)) is)) with (Cmod (f i) + lsum (map (fun i => Cmod (f i)) is))%R. eapply Rle_trans; [apply Cmod_triangle|]. lra.
Qed.
Lemma prods_err (x y : Z -> c64) is :
  (forall i, In i is -> finite64 (x i) /\ finite64 (y i) /\ (Cmod (cval (x i)) * Cmod (cval (y i)) <= bpow radix2 1000)%R) ->
  let A := lsum (map (fun i => (Cmod (cval (x i)) * Cmod (cval (y i)))%R) is) in let ts := map (fun i => cmul (x i) (y i)) is in
  (forall z, In z ts -> finite64 z) /\
  (Cmod (clsum ts - clist (map (fun i => Cmult (cval (x i)) (cval (y i))) is))%C <= 3 * eps * A + 4 * eta * INR (length is))%R /\
  (cabs ts <= (1 + 3 * eps) * A + 4 * eta * INR (length is))%R.
Proof.
  induction is as [|i is IH]; intros H A ts.
  - split; [intros z []|]. unfold A, ts, clsum, cabs, lsum, clist. cbn. replace (RtoC 0 - RtoC 0)%C with (RtoC 0) by ring. rewrite Cmod_0. lra.
  - specialize (IH (fun k Hk => H k (or_intror Hk))). destruct (H i (or_introl eq_refl)) as (Fx & Fy & B).
    destruct (cmul_val (x i) (y i) Fx Fy B) as (Fz & _ & D). destruct IH as (I1 & I2 & I3). split.
    { intros z [<-|Hz]; [exact Fz|]. now apply I1. }
    set (A' := lsum (map (fun i => (Cmod (cval (x i)) * Cmod (cval (y i)))%R) is)) in *. set (ts' := map (fun i => cmul (x i) (y i)) is) in *.
    set (E' := clist (map (fun i => Cmult (cval (x i)) (cval (y i))) is)) in *. set (P := (Cmod (cval (x i)) * Cmod (cval (y i)))%R) in *.
    change A with (P + A')%R. change (length (i :: is)) with (Datatypes.S (length is)). rewrite S_INR.
    change (clist (map (fun i0 => Cmult (cval (x i0)) (cval (y i0))) (i :: is))) with (cval (x i) * cval (y i) + E')%C.
    change (clsum ts) with (cval (cmul (x i) (y i)) + clsum ts')%C. change (cabs ts) with (Cmod (cval (cmul (x i) (y i))) + cabs ts')%R.
    set (c := cval (cmul (x i) (y i))) in *. split.
    + replace (c + clsum ts' - (cval (x i) * cval (y i) + E'))%C with ((c - cval (x i) * cval (y i)) + (clsum ts' - E'))%C by ring.
      eapply Rle_trans; [apply Cmod_triangle|]. lra.
    + assert (Cmod c <= P + (3 * eps * P + 4 * eta))%R; [|lra].
      replace c with ((c - cval (x i) * cval (y i)) + cval (x i) * cval (y i))%C by ring. eapply Rle_trans; [apply Cmod_triangle|].
      rewrite (Cmod_mult (cval (x i)) (cval (y i))). fold P. lra.
Qed.

(** the accumulation over scales *)
Lemma fold_err (tl : Z -> list c64) (fs : Z -> list f64 -> f64) (b : Z -> bool) js : forall a h M V,
  csumb h M V a -> (forall j z, In j js -> b j = true -> In z (tl j) -> finite64 z) ->
  (forall j, In j js -> b j = true -> (length (tl j) <= Datatypes.S h)%nat) -> (forall j xs, adds xs (fs j xs)) ->
  (gr (Datatypes.S (h + length js)) <= 2)%R ->
  (M + lsum (map (fun j => if b j then cabs (tl j) else 0%R) js) <= bpow radix2 1003)%R ->
  csumb (h + length js) (M + lsum (map (fun j => if b j then cabs (tl j) else 0%R) js))
        (V + clist (map (fun j => if b j then clsum (tl j) else RtoC 0) js))%C
        (fold_left (fun a j => if b j then cadd a (csum64 (fs j) (tl j)) else a) js a).
Proof.
  induction js as [|j js IH]; intros a h M V Ha HF Hl Hs Hg HM.
  - cbn. rewrite Nat.add_0_r, Rplus_0_r. replace (V + RtoC 0)%C with V by ring. exact Ha.
  - cbn [fold_left map length] in *. set (rest := map (fun j => if b j then cabs (tl j) else 0%R) js) in *.
    set (crest := map (fun j => if b j then clsum (tl j) else RtoC 0) js) in *.
    assert (P : (0 <= lsum rest)%R) by (apply lsum_map_pos; intros i _; destruct (b i); [apply cabs_pos|lra]).
    replace (h + Datatypes.S (length js))%nat with (Datatypes.S h + length js)%nat in * by lia.
    assert (IH' := IH). destruct (b j) eqn:Bj.
    + change (lsum (cabs (tl j) :: rest)) with (cabs (tl j) + lsum rest)%R in *. change (clist (clsum (tl j) :: crest)) with (clsum (tl j) + clist crest)%C.
      rewrite <- Rplus_assoc in *. rewrite Cplus_assoc. apply IH; auto.
      * assert (H1 : (gr (Datatypes.S h) <= 2)%R) by (eapply Rle_trans; [apply gr_le|exact Hg]; lia).
        assert (M0 : (0 <= M)%R). { destruct Ha as (S & T & A & _). eapply Rle_trans; [apply Cmod_ge_0|exact A]. }
        apply csumb_add; auto; [|eapply Rle_trans; [apply (gr_le h (Datatypes.S h)); lia|exact H1]|lra].
        apply csumb_mono with (Nat.pred (length (tl j))) (cabs (tl j)); [specialize (Hl j (or_introl eq_refl) Bj); lia|lra|].
        apply csum_csumb; [apply Hs|intros z Hz; apply (HF j z); auto; now left| |lra].
        eapply Rle_trans; [apply gr_le, (Hl j (or_introl eq_refl) Bj)|exact H1].
      * intros i z Hi. apply HF. now right.
      * intros i Hi Hb. specialize (Hl i (or_intror Hi) Hb). lia.
    + change (lsum (0%R :: rest)) with (0 + lsum rest)%R in *. change (clist (RtoC 0 :: crest)) with (RtoC 0 + clist crest)%C.
      rewrite Rplus_0_l in *. rewrite Cplus_0_l. apply csumb_mono with (h + length js)%nat (M + lsum rest)%R; [lia|lra|]. apply IH; auto.
      * intros i z Hi. apply HF. now right.
      * intros i Hi Hb. apply Hl; auto. now right.
      * eapply Rle_trans; [apply gr_le|exact Hg]. lia.
Qed.
