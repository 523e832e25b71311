(** Statements and proofs for PropertiesQuad.v *)

From Coq Require Import ZArith Reals List Bool Lia Lra Psatz.
From Coquelicot Require Import Coquelicot.
From Flocq Require Import Core.Raux.
From Verif Require Import Py PyFacts ModelSamples SamplesFacts SamplesProps ModelFilters ModelTransforms Spec SpecTransforms FiltersFacts FiltersProps FrameProps TransformsFacts TransformsProps Demo SpecQuad QuadFacts.
Import ListNotations.
Open Scope Z_scope.

(*T Accuracy of the quadrature: distance to the documented integrals *)
(*! From Coq Require Import ZArith Reals List Bool. *)
(*! From Coquelicot Require Import Coquelicot. *)
(*! From Verif Require Import Py ModelSamples ModelFilters ModelTransforms Spec SpecTransforms SpecQuad Demo. *)

Section Q.
Variables (lam a : R) (n : Z).
Hypothesis (Hl : (1 < lam)%R) (Hn : 12 <= n) (Ha : (1 / lam <= a < 1)%R).
Let h := ((1 - a) / IZR n)%R.
Let x (i : Z) := (a + IZR i * h)%R.
Let P (i : Z) := (h * ((kernel_integrand lam (x i) + kernel_integrand lam (x (i + 1))) / 2))%R.

Lemma n_pos : (12 <= IZR n)%R.
Proof. now apply (IZR_le 12). Qed.
Lemma h_pos : (0 < h)%R.
Proof. pose proof n_pos. unfold h. apply Rdiv_lt_0_compat; lra. Qed.
Lemma h_n : (IZR n * h = 1 - a)%R.
Proof. pose proof n_pos. unfold h. field. lra. Qed.
Lemma x_S i : x (i + 1) = (x i + h)%R.
Proof. unfold x. rewrite plus_IZR. ring. Qed.
Lemma x_last : x (n - 1) = (1 - h)%R.
Proof. unfold x. rewrite minus_IZR. replace ((IZR n - 1) * h)%R with (IZR n * h - h)%R by ring. rewrite h_n. lra. Qed.
Lemma x_mono i j : i <= j -> (x i <= x j)%R.
Proof. intros H. pose proof h_pos. unfold x. apply Rplus_le_compat_l, Rmult_le_compat_r; [lra|]. now apply IZR_le. Qed.

Lemma sum_err first : (1 / lam < x first)%R -> forall k, first <= k -> k <= n - 1 ->
  (Rabs (sumZ first k P - RInt (tiling lam) (x first) (x k)) <= IZR (k - first) * (M2 lam * h ^ 3 / 6))%R.
Proof.
  intros H0 k Hk. pattern k. apply Zlt_lower_bound_ind with first; [|exact Hk]. clear k Hk. intros k IH Hk Hk'.
  destruct (Z.eq_dec k first) as [->|Hne].
  { rewrite sumZ_nil by lia. rewrite RInt_point. unfold Hierarchy.zero; cbn. rewrite Z.sub_diag, Rmult_0_l, Rminus_0_r, Rabs_R0. lra. }
  replace k with (k - 1 + 1) by lia. rewrite sumZ_S by lia.
  specialize (IH (k - 1) ltac:(lia) ltac:(lia)).
  assert (EC : RInt (tiling lam) (x first) (x (k - 1 + 1)) = (RInt (tiling lam) (x first) (x (k - 1)) + RInt (tiling lam) (x (k - 1)) (x (k - 1 + 1)))%R).
  { symmetry. apply (RInt_Chasles (tiling lam)); now apply tiling_ex. }
  rewrite EC. pose proof h_pos as Hh.
  assert (HP : (Rabs (P (k - 1) - RInt (tiling lam) (x (k - 1)) (x (k - 1 + 1))) <= M2 lam * h ^ 3 / 6)%R).
  { unfold P. rewrite x_S. apply tiling_panel; auto.
    - apply Rlt_le_trans with (1 := H0). apply x_mono. lia.
    - rewrite <- x_S. replace (k - 1 + 1) with k by lia. apply Rle_lt_trans with (1 := x_mono k (n - 1) Hk'). rewrite x_last. lra. }
  replace (k - 1 + 1 - first) with (k - 1 - first + 1) by lia. rewrite plus_IZR.
  apply Rabs_le_inv in IH. apply Rabs_le_inv in HP. apply Rabs_le. lra.
Qed.

Lemma end_int u v : (u <= v)%R -> (v - u <= h)%R -> (forall t, (u <= t <= v)%R -> (1 - t <= h \/ t - 1 / lam <= h)%R) ->
  (0 <= RInt (tiling lam) u v <= h * (lam * (2 * (sl lam * h) ^ 3)))%R.
Proof.
  intros Huv Hvu Ht. pose proof h_pos as Hh. split.
  - apply RInt_ge_0; auto. { now apply tiling_ex. } intros t _. now apply tiling_pos.
  - set (c := (lam * (2 * (sl lam * h) ^ 3))%R).
    assert (Hc : (0 <= c)%R).
    { pose proof (sl_pos lam Hl). unfold c. apply Rmult_le_pos; [lra|]. apply Rmult_le_pos; [lra|]. apply pow_le, Rmult_le_pos; lra. }
    apply Rle_trans with (RInt (fun _ => c) u v).
    + apply RInt_le; auto. { now apply tiling_ex. } { apply ex_RInt_const. }
      intros t Hti. apply tiling_end; auto. apply Ht. lra.
    + rewrite RInt_const. unfold scal; cbn; unfold mult; cbn. apply Rmult_le_compat_r; assumption.
Qed.

Lemma exp2_le : (exp (-2) <= / 7)%R.
Proof.
  pose proof (exp_taylor3 1 ltac:(lra)) as H. assert (H1 : (8 / 3 <= exp 1)%R) by lra.
  assert (H2 : (7 <= exp 2)%R).
  { replace 2%R with (1 + 1)%R by ring. rewrite exp_plus. assert ((8 / 3) * (8 / 3) <= exp 1 * exp 1)%R by (apply Rmult_le_compat; lra). lra. }
  replace (-2)%R with (- (2))%R by ring. rewrite exp_Ropp. apply Rinv_le_contravar; lra.
Qed.

Definition Aq : R := ((lam - 1) * ((lam + 3) ^ 2 + 21) / 21)%R.

Lemma total_bound : (IZR n * (M2 lam * h ^ 3 / 6) + 2 * (h * (lam * (2 * (sl lam * h) ^ 3))) <= Aq / IZR n ^ 2)%R.
Proof.
  pose proof h_pos as Hh. pose proof n_pos as HN. pose proof (inv_lam_pos lam Hl) as Hi. pose proof (sl_pos lam Hl) as Hs.
  set (w := ((lam - 1) / lam)%R). assert (Hw : (0 < w)%R) by (apply Rdiv_lt_0_compat; lra).
  set (h0 := (w / IZR n)%R). assert (Hh0 : (h <= h0)%R).
  { unfold h, h0, Rdiv. apply Rmult_le_compat_r; [left; apply Rinv_0_lt_compat; lra|].
    assert (w = 1 - 1 / lam)%R by (unfold w; field; lra). unfold w in *. lra. }
  assert (H3 : (h ^ 3 <= h0 ^ 3)%R) by (apply pow_incr; lra).
  pose proof (M2_pos lam Hl) as HM.
  apply Rle_trans with (IZR n * (M2 lam * h0 ^ 3 / 6) + 2 * (h0 * (lam * (2 * (sl lam * h0) ^ 3))))%R.
  - apply Rplus_le_compat.
    + apply Rmult_le_compat_l; [lra|]. assert (M2 lam * h ^ 3 <= M2 lam * h0 ^ 3)%R by (apply Rmult_le_compat_l; lra). lra.
    + apply Rmult_le_compat_l; [lra|]. rewrite !Rpow_mult_distr.
      assert (HS : (0 <= sl lam ^ 3)%R) by (apply pow_le; lra). assert (Hp : (0 <= h ^ 3)%R) by (apply pow_le; lra).
      apply Rmult_le_compat; try lra.
      * apply Rmult_le_pos; [lra|]. apply Rmult_le_pos; [lra|]. apply Rmult_le_pos; assumption.
      * apply Rmult_le_compat_l; [lra|]. apply Rmult_le_compat_l; [lra|]. apply Rmult_le_compat_l; assumption.
  - set (mu := (lam - 1)%R). assert (Hmu : (0 < mu)%R) by (unfold mu; lra).
    assert (E1 : (IZR n * (M2 lam * h0 ^ 3 / 6) = exp (-2) * (mu * (32 + 8 * mu + mu ^ 2) / (3 * IZR n ^ 2)))%R).
    { unfold M2, h0, w, sl, mu. field. lra. }
    assert (E2 : (2 * (h0 * (lam * (2 * (sl lam * h0) ^ 3))) = 32 * mu / IZR n ^ 4)%R).
    { unfold h0, w, sl, mu. field. lra. }
    rewrite E1, E2. set (N2 := (IZR n ^ 2)%R). assert (HN2 : (144 <= N2)%R) by (unfold N2; nra).
    assert (EN : (IZR n ^ 4 = N2 * N2)%R) by (unfold N2; ring). rewrite EN.
    assert (Hpoly : (0 <= mu * (32 + 8 * mu + mu ^ 2))%R) by (apply Rmult_le_pos; [lra|]; pose proof (pow2_ge_0 mu); lra).
    assert (B1 : (exp (-2) * (mu * (32 + 8 * mu + mu ^ 2) / (3 * N2)) <= mu * (32 + 8 * mu + mu ^ 2) / 21 / N2)%R).
    { replace (mu * (32 + 8 * mu + mu ^ 2) / 21 / N2)%R with (/ 7 * (mu * (32 + 8 * mu + mu ^ 2) / (3 * N2)))%R by (field; lra).
      apply Rmult_le_compat_r; [|apply exp2_le]. apply Rmult_le_pos; [exact Hpoly|]. left. apply Rinv_0_lt_compat. lra. }
    assert (B2 : (32 * mu / (N2 * N2) <= 32 * mu / 144 / N2)%R).
    { unfold Rdiv. rewrite Rinv_mult, <- Rmult_assoc. apply Rmult_le_compat_r; [left; apply Rinv_0_lt_compat; lra|].
      apply Rmult_le_compat_l; [lra|]. apply Rinv_le_contravar; lra. }
    apply Rle_trans with (1 := Rplus_le_compat _ _ _ _ B1 B2).
    unfold Rdiv. rewrite <- Rmult_plus_distr_r. apply Rmult_le_compat_r; [left; apply Rinv_0_lt_compat; lra|].
    replace (Aq) with (mu * (mu ^ 2 + 8 * mu + 37) / 21)%R by (unfold Aq, mu; field). nra.
Qed.

Lemma trapezium_err first : first = 0 /\ (1 / lam < a)%R \/ first = 1 /\ a = (1 / lam)%R ->
  (Rabs (trapezium lam a first n - RInt (tiling lam) a 1) <= Aq / IZR n ^ 2)%R.
Proof.
  intros Hf. pose proof h_pos as Hh. pose proof n_pos as HN.
  assert (Hx0 : (1 / lam < x first)%R).
  { destruct Hf as [[-> H]|[-> ->]]; unfold x; lra. }
  assert (Hf01 : 0 <= first <= 1) by lia.
  pose proof (sum_err first Hx0 (n - 1) ltac:(lia) ltac:(lia)) as HS.
  change (trapezium lam a first n) with (sumZ first (n - 1) P).
  assert (E1 : RInt (tiling lam) a 1 = (RInt (tiling lam) a (x first) + RInt (tiling lam) (x first) (x (n - 1)) + RInt (tiling lam) (x (n - 1)) 1)%R).
  { rewrite <- (RInt_Chasles (tiling lam) a (x (n - 1)) 1), <- (RInt_Chasles (tiling lam) a (x first) (x (n - 1))) by now apply tiling_ex.
    reflexivity. }
  rewrite E1.
  assert (B1 : (0 <= RInt (tiling lam) a (x first) <= h * (lam * (2 * (sl lam * h) ^ 3)))%R).
  { destruct Hf as [[-> H]|[-> H]].
    - replace (x 0) with a by (unfold x; lra). rewrite RInt_point. change (@Hierarchy.zero R_CompleteNormedModule) with 0%R. split; [lra|].
      pose proof (sl_pos lam Hl). apply Rmult_le_pos; [lra|]. apply Rmult_le_pos; [lra|]. apply Rmult_le_pos; [lra|].
      apply pow_le, Rmult_le_pos; lra.
    - apply end_int; unfold x; try lra. intros t Ht. right. lra. }
  assert (B2 : (0 <= RInt (tiling lam) (x (n - 1)) 1 <= h * (lam * (2 * (sl lam * h) ^ 3)))%R).
  { apply end_int; rewrite x_last; try lra. intros t Ht. left. lra. }
  pose proof total_bound as HT.
  assert (HM : (0 <= M2 lam * h ^ 3 / 6)%R).
  { apply Rmult_le_pos; [|lra]. apply Rmult_le_pos; [now apply M2_pos|apply pow_le; lra]. }
  assert (HK : (IZR (n - 1 - first) * (M2 lam * h ^ 3 / 6) <= IZR n * (M2 lam * h ^ 3 / 6))%R).
  { apply Rmult_le_compat_r; [exact HM|]. apply IZR_le. lia. }
  apply Rabs_le_inv in HS. apply Rabs_le. lra.
Qed.
End Q.

(** ** the normalisation *)

Lemma exp_83 : (/ 15 <= exp (- (8 / 3)))%R.
Proof.
  assert (S : forall y c d, (0 <= c)%R -> (c <= exp y)%R -> (d <= c * c)%R -> (d <= exp (y + y))%R).
  { intros y c d H1 H2 H3. rewrite exp_plus. apply Rle_trans with (1 := H3). apply Rmult_le_compat; lra. }
  pose proof (exp_lin (- (1 / 48))) as H0.
  assert (H1 : (9587 / 10000 <= exp (- (1 / 24)))%R).
  { replace (- (1 / 24))%R with (- (1 / 48) + - (1 / 48))%R by lra. apply S with (47 / 48)%R; lra. }
  assert (H2 : (919 / 1000 <= exp (- (1 / 12)))%R).
  { replace (- (1 / 12))%R with (- (1 / 24) + - (1 / 24))%R by lra. apply S with (9587 / 10000)%R; lra. }
  assert (H3 : (8445 / 10000 <= exp (- (1 / 6)))%R).
  { replace (- (1 / 6))%R with (- (1 / 12) + - (1 / 12))%R by lra. apply S with (919 / 1000)%R; lra. }
  assert (H4 : (713 / 1000 <= exp (- (1 / 3)))%R).
  { replace (- (1 / 3))%R with (- (1 / 6) + - (1 / 6))%R by lra. apply S with (8445 / 10000)%R; lra. }
  assert (H5 : (5083 / 10000 <= exp (- (2 / 3)))%R).
  { replace (- (2 / 3))%R with (- (1 / 3) + - (1 / 3))%R by lra. apply S with (713 / 1000)%R; lra. }
  assert (H6 : (2583 / 10000 <= exp (- (4 / 3)))%R).
  { replace (- (4 / 3))%R with (- (2 / 3) + - (2 / 3))%R by lra. apply S with (5083 / 10000)%R; lra. }
  replace (- (8 / 3))%R with (- (4 / 3) + - (4 / 3))%R by lra. apply S with (2583 / 10000)%R; lra.
Qed.

Lemma sumZ_ge lo hi f c : lo <= hi -> (forall i, lo <= i < hi -> (c <= f i)%R) -> (IZR (hi - lo) * c <= sumZ lo hi f)%R.
Proof.
  intros Hle. pattern hi. apply Zlt_lower_bound_ind with lo; [|exact Hle]. clear hi Hle. intros hi IH Hle Hf.
  destruct (Z.eq_dec hi lo) as [->|Hne]; [rewrite sumZ_nil, Z.sub_diag by lia; lra|].
  replace hi with (hi - 1 + 1) by lia. rewrite sumZ_S by lia.
  specialize (IH (hi - 1) ltac:(lia) ltac:(intros; apply Hf; lia)). pose proof (Hf (hi - 1) ltac:(lia)).
  replace (hi - 1 + 1 - lo) with (hi - 1 - lo + 1) by lia. rewrite plus_IZR. lra.
Qed.

Lemma kernel_mid lam t : (1 < lam)%R -> (1 / lam < t < 1)%R -> (- (1 / 2) <= sg lam t <= 1 / 2)%R ->
  (/ 15 <= kernel_integrand lam t)%R.
Proof.
  intros Hl Ht Hs. pose proof (inv_lam_pos lam Hl) as Hi. rewrite <- tiling_kernel by auto. unfold tiling. fold (sg lam t).
  rewrite bump_in by (apply sg_in; auto).
  assert (H1 : (1 <= / t)%R) by (rewrite <- Rinv_1 at 1; apply Rinv_le_contravar; lra).
  assert (H2 : (exp (- (8 / 3)) <= exp (- (2 / (1 - sg lam t * sg lam t))))%R).
  { assert (H : (2 / (1 - sg lam t * sg lam t) <= 8 / 3)%R).
    { replace (8 / 3)%R with (2 * / (3 / 4))%R by field. unfold Rdiv. apply Rmult_le_compat_l; [lra|]. apply Rinv_le_contravar; nra. }
    destruct H as [H|H]; [left; apply exp_increasing; lra|rewrite H; lra]. }
  pose proof exp_83. unfold Rdiv. set (e := exp (- (2 / (1 - sg lam t * sg lam t)))) in *. unfold Rdiv in *. fold e. nra.
Qed.

Lemma kernel_nonneg lam t : (1 < lam)%R -> (1 / lam < t < 1)%R -> (0 <= kernel_integrand lam t)%R.
Proof. intros Hl Ht. rewrite <- tiling_kernel by auto. now apply tiling_pos. Qed.

Lemma norm_lb lam n : (1 < lam)%R -> 12 <= n -> ((lam - 1) / (40 * lam) <= trapezium lam (1 / lam) 1 n)%R.
Proof.
  intros Hl Hn. pose proof (inv_lam_pos lam Hl) as Hi. pose proof (n_pos n Hn) as HN.
  set (h := ((1 - 1 / lam) / IZR n)%R). assert (Hh : (0 < h)%R) by (apply Rdiv_lt_0_compat; lra).
  assert (Hnh : (IZR n * h = 1 - 1 / lam)%R) by (unfold h; field; lra).
  set (P := fun i => (h * ((kernel_integrand lam (1 / lam + IZR i * h) + kernel_integrand lam (1 / lam + IZR (i + 1) * h)) / 2))%R).
  change (trapezium lam (1 / lam) 1 n) with (sumZ 1 (n - 1) P).
  assert (Hin : forall i, 1 <= i <= n - 1 -> (1 / lam < 1 / lam + IZR i * h < 1)%R).
  { intros i Hi'. assert (1 <= IZR i)%R by (apply (IZR_le 1); lia).
    assert (IZR i <= IZR n - 1)%R by (rewrite <- minus_IZR; apply IZR_le; lia). split; [nra|]. nra. }
  set (lo := (n + 3) / 4). set (hi := 3 * n / 4).
  assert (Hlo : n <= 4 * lo <= n + 3) by (unfold lo; pose proof (Z.div_mod (n + 3) 4); pose proof (Z.mod_pos_bound (n + 3) 4); lia).
  assert (Hhi : 3 * n - 3 <= 4 * hi <= 3 * n) by (unfold hi; pose proof (Z.div_mod (3 * n) 4); pose proof (Z.mod_pos_bound (3 * n) 4); lia).
  assert (Hsg : forall i, lo <= i <= hi -> (- (1 / 2) <= sg lam (1 / lam + IZR i * h) <= 1 / 2)%R).
  { intros i Hi'. assert (E : sg lam (1 / lam + IZR i * h) = (2 * (IZR i / IZR n) - 1)%R) by (unfold sg, h; field; lra).
    rewrite E. assert (IZR n <= 4 * IZR i)%R by (rewrite <- mult_IZR; apply IZR_le; lia).
    assert (4 * IZR i <= 3 * IZR n)%R by (rewrite <- !mult_IZR; apply IZR_le; lia).
    assert (/ 4 <= IZR i / IZR n <= 3 / 4)%R; [|lra].
    split; apply Rmult_le_reg_r with (IZR n); try lra; unfold Rdiv; rewrite ?Rmult_assoc, ?Rinv_l by lra; lra. }
  assert (HP0 : forall i, 1 <= i < n - 1 -> (0 <= P i)%R).
  { intros i Hi'. unfold P. pose proof (kernel_nonneg lam _ Hl (Hin i ltac:(lia))). pose proof (kernel_nonneg lam _ Hl (Hin (i + 1) ltac:(lia))).
    apply Rmult_le_pos; lra. }
  rewrite (sumZ_split 1 lo (n - 1)), (sumZ_split lo hi (n - 1)) by lia.
  assert (A1 : (0 <= sumZ 1 lo P)%R).
  { pose proof (sumZ_ge 1 lo P 0 ltac:(lia) ltac:(intros; apply HP0; lia)). rewrite Rmult_0_r in *. lra. }
  assert (A2 : (0 <= sumZ hi (n - 1) P)%R).
  { pose proof (sumZ_ge hi (n - 1) P 0 ltac:(lia) ltac:(intros; apply HP0; lia)). rewrite Rmult_0_r in *. lra. }
  assert (A3 : (IZR (hi - lo) * (h * / 15) <= sumZ lo hi P)%R).
  { apply sumZ_ge; [lia|]. intros i Hi'. unfold P. apply Rmult_le_compat_l; [lra|].
    pose proof (kernel_mid lam _ Hl (Hin i ltac:(lia)) (Hsg i ltac:(lia))).
    pose proof (kernel_mid lam _ Hl (Hin (i + 1) ltac:(lia)) (Hsg (i + 1) ltac:(lia))). lra. }
  assert (A4 : (3 * IZR n <= 8 * IZR (hi - lo))%R) by (rewrite <- !mult_IZR; apply IZR_le; lia).
  assert (A5 : (3 / 8 * IZR n * (h * / 15) <= IZR (hi - lo) * (h * / 15))%R) by (apply Rmult_le_compat_r; lra).
  replace ((lam - 1) / (40 * lam))%R with (3 / 8 * (IZR n * h) * / 15)%R by (rewrite Hnh; field; lra). lra.
Qed.

(** ** the generating function *)

Lemma gen_norm_pos lam : (1 < lam)%R -> (0 < RInt (tiling lam) (1 / lam) 1)%R.
Proof.
  intros Hl. pose proof (inv_lam_pos lam Hl). apply RInt_gt_0; [lra| |].
  - intros x Hx. unfold tiling. apply Rmult_lt_0_compat; [|apply Rinv_0_lt_compat; lra]. fold (sg lam x).
    rewrite bump_in by (apply sg_in; auto). apply exp_pos.
  - intros x Hx. now apply tiling_continuous.
Qed.

Lemma RInt_tiling_le lam a : (1 < lam)%R -> (0 <= a)%R ->
  (0 <= RInt (tiling lam) a 1 <= RInt (tiling lam) (1 / lam) 1)%R.
Proof.
  intros Hl Ha. pose proof (inv_lam_pos lam Hl) as Hi.
  assert (Z0 : forall u v, (u <= v)%R -> (v <= 1 / lam \/ 1 <= u)%R -> RInt (tiling lam) u v = 0%R).
  { intros u v Huv Hout. transitivity (RInt (fun _ => 0%R) u v).
    - apply RInt_ext. rewrite Rmin_left, Rmax_right by lra. intros t Ht. apply tiling_out; auto. destruct Hout; [left|right]; lra.
    - rewrite RInt_const. unfold scal; cbn; unfold mult; cbn. ring. }
  assert (C : forall u v w, RInt (tiling lam) u w = (RInt (tiling lam) u v + RInt (tiling lam) v w)%R).
  { intros u v w. symmetry. apply (RInt_Chasles (tiling lam)); now apply tiling_ex. }
  assert (G : forall u v, (u <= v)%R -> (0 <= RInt (tiling lam) u v)%R).
  { intros u v Huv. apply RInt_ge_0; auto. { now apply tiling_ex. } intros t _. now apply tiling_pos. }
  destruct (Rle_dec a (1 / lam)) as [H|H].
  - rewrite (C a (1 / lam)%R 1%R), (Z0 a (1 / lam)%R) by lra. pose proof (G (1 / lam)%R 1%R ltac:(lra)). lra.
  - destruct (Rle_dec a 1) as [H'|H'].
    + rewrite (C (1 / lam)%R a 1%R). pose proof (G (1 / lam)%R a ltac:(lra)). pose proof (G a 1%R ltac:(lra)). lra.
    + assert (E : RInt (tiling lam) a 1 = 0%R).
      { rewrite <- (opp_RInt_swap (tiling lam)) by now apply tiling_ex. rewrite Z0 by lra. unfold opp; cbn. ring. }
      rewrite E. pose proof (G (1 / lam)%R 1%R ltac:(lra)). lra.
Qed.

Lemma gen_range lam t : (1 < lam)%R -> (0 <= t)%R -> (0 <= generating lam t <= 1)%R.
Proof.
  intros Hl Ht. pose proof (gen_norm_pos lam Hl) as HN. pose proof (RInt_tiling_le lam t Hl Ht) as [H1 H2]. unfold generating.
  split; [apply Rdiv_le_0_compat; lra|]. apply Rmult_le_reg_r with (RInt (tiling lam) (1 / lam) 1); [exact HN|].
  unfold Rdiv. rewrite Rmult_assoc, Rinv_l by lra. lra.
Qed.
Lemma gen_mono lam t u : (1 < lam)%R -> (0 <= t <= u)%R -> (generating lam u <= generating lam t)%R.
Proof.
  intros Hl Ht. pose proof (gen_norm_pos lam Hl) as HN. unfold generating, Rdiv. apply Rmult_le_compat_r.
  - left. now apply Rinv_0_lt_compat.
  - assert (E : RInt (tiling lam) t 1 = (RInt (tiling lam) t u + RInt (tiling lam) u 1)%R).
    { symmetry. apply (RInt_Chasles (tiling lam)); now apply tiling_ex. }
    rewrite E. assert (0 <= RInt (tiling lam) t u)%R; [|lra]. apply RInt_ge_0; [lra|now apply tiling_ex|]. intros s _. now apply tiling_pos.
Qed.
Lemma gen_low lam t : (1 < lam)%R -> (0 <= t <= 1 / lam)%R -> generating lam t = 1%R.
Proof.
  intros Hl Ht. pose proof (gen_norm_pos lam Hl) as HN. apply Rle_antisym; [apply gen_range; lra|].
  replace 1%R with (generating lam (1 / lam)) at 1 by (unfold generating; field; lra). apply gen_mono; lra.
Qed.
Lemma gen_high lam t : (1 < lam)%R -> (1 <= t)%R -> generating lam t = 0%R.
Proof.
  intros Hl Ht. apply Rle_antisym; [|apply gen_range; lra]. replace 0%R with (generating lam 1).
  - apply gen_mono; lra.
  - unfold generating. rewrite RInt_point. change (@Hierarchy.zero R_CompleteNormedModule) with 0%R. unfold Rdiv. ring.
Qed.

Lemma ratio_err lam a n : (1 < lam)%R -> 12 <= n -> (1 / lam < a < 1)%R ->
  (Rabs (trapezium lam a 0 n / trapezium lam (1 / lam) 1 n - generating lam a) <= quad_error lam n)%R.
Proof.
  intros Hl Hn Ha. pose proof (inv_lam_pos lam Hl) as Hi. pose proof (n_pos n Hn) as HN.
  pose proof (trapezium_err lam a n Hl Hn ltac:(lra) 0 ltac:(left; split; [reflexivity|lra])) as E1.
  pose proof (trapezium_err lam (1 / lam) n Hl Hn ltac:(lra) 1 ltac:(right; split; reflexivity)) as E2.
  pose proof (norm_lb lam n Hl Hn) as HC. set (c := trapezium lam (1 / lam) 1 n) in *. set (q := trapezium lam a 0 n) in *.
  pose proof (gen_range lam a Hl ltac:(lra)) as HG. pose proof (gen_norm_pos lam Hl) as HI.
  assert (EG : (RInt (tiling lam) a 1 = generating lam a * RInt (tiling lam) (1 / lam) 1)%R).
  { unfold generating, Rdiv. rewrite Rmult_assoc, Rinv_l by lra. now rewrite Rmult_1_r. }
  rewrite EG in E1. clear EG. revert E1 E2 HI. generalize (RInt (tiling lam) (1 / lam) 1 : R). intros I0 E1 E2 HI. set (K := generating lam a) in *.
  set (A := (Aq lam / IZR n ^ 2)%R) in *.
  assert (Hb : (0 < (lam - 1) / (40 * lam))%R) by (apply Rdiv_lt_0_compat; lra).
  replace (q / c - K)%R with ((q - K * c) * / c)%R by (field; lra).
  rewrite Rabs_mult, (Rabs_pos_eq (/ c)) by (left; apply Rinv_0_lt_compat; lra).
  assert (HA : (Rabs (q - K * c) <= 2 * A)%R).
  { apply Rabs_le_inv in E1, E2. apply Rabs_le.
    assert (- A <= K * (c - I0) <= A)%R by (split; nra). nra. }
  assert (HA0 : (0 <= A)%R) by (pose proof (Rabs_pos (q - K * c)); lra).
  apply Rle_trans with (2 * A * ((40 * lam) / (lam - 1)))%R.
  - apply Rmult_le_compat; [apply Rabs_pos|left; apply Rinv_0_lt_compat; lra|exact HA|].
    replace (40 * lam / (lam - 1))%R with (/ ((lam - 1) / (40 * lam)))%R by (field; lra). apply Rinv_le_contravar; lra.
  - unfold A, Aq, quad_error. set (p := ((lam + 3) ^ 2 + 21)%R). assert (Hp : (0 <= p)%R) by (unfold p; pose proof (pow2_ge_0 (lam + 3)); lra).
    replace (2 * ((lam - 1) * p / 21 / IZR n ^ 2) * (40 * lam / (lam - 1)))%R with (80 / 21 * lam * p / IZR n ^ 2)%R by (field; lra).
    unfold Rdiv at 1 2. unfold Rdiv. apply Rmult_le_compat_r; [left; apply Rinv_0_lt_compat; nra|].
    apply Rmult_le_compat_r; [exact Hp|]. lra.
Qed.

(*% ** C50: the generating function approximates the documented integrals *)

(*@ C50_generating_function_accuracy *)
Lemma k_accuracy : forall L lam n k j l, 1 <= L -> (1 < lam)%R -> 12 <= n ->
  k_lam L lam n = Ok k -> 0 <= j < rows k -> 0 <= l < L ->
  (Rabs (get2 k j l - generating lam (IZR l / powerRZ lam j)) <= quad_error lam n)%R.
Proof.
  intros L lam n k j l HL Hl Hn Ek Hj Hll.
  destruct (generating_values L lam n HL Hl ltac:(lia)) as (J & k' & EJ & Ek' & Hs & HV).
  rewrite Ek in Ek'. apply Ok_inj in Ek'. subst k'. injection Hs as Hr _. rewrite Hr in Hj.
  destruct (HV j l Hj Hll) as (V1 & V0 & _). pose proof (pw_pos lam j ltac:(lra)) as Hp. pose proof (inv_lam_pos lam Hl) as Hi.
  assert (H0 : (0 <= IZR l)%R) by (apply (IZR_le 0); lia).
  assert (Hq : (0 <= quad_error lam n)%R).
  { pose proof (n_pos n Hn). unfold quad_error. apply Rdiv_le_0_compat; [|nra]. pose proof (pow2_ge_0 (lam + 3)). nra. }
  assert (Hpj : powerRZ lam (j - 1) = (powerRZ lam j * (1 / lam))%R).
  { replace j with (j - 1 + 1) at 2 by lia. rewrite powerRZ_add by lra. rewrite powerRZ_1. field. lra. }
  assert (Ht : forall u, (IZR l / powerRZ lam j <= u <-> IZR l <= powerRZ lam j * u)%R).
  { intros u. replace (IZR l) with (powerRZ lam j * (IZR l / powerRZ lam j))%R at 2 by (field; lra). split; intros H.
    - apply Rmult_le_compat_l; lra. - apply Rmult_le_reg_l with (1 := Hp). exact H. }
  assert (Ht' : forall u, (u <= IZR l / powerRZ lam j <-> powerRZ lam j * u <= IZR l)%R).
  { intros u. replace (IZR l) with (powerRZ lam j * (IZR l / powerRZ lam j))%R at 2 by (field; lra). split; intros H.
    - apply Rmult_le_compat_l; lra. - apply Rmult_le_reg_l with (1 := Hp). exact H. }
  assert (Hx : (0 <= IZR l / powerRZ lam j)%R) by (apply Rdiv_le_0_compat; lra).
  destruct (Rle_dec (IZR l) (powerRZ lam (j - 1))) as [A|A].
  - rewrite (V1 A), gen_low by (try lra; (split; [lra|apply Ht; lra])). rewrite Rminus_eq_0, Rabs_R0. exact Hq.
  - destruct (Rle_dec (powerRZ lam j) (IZR l)) as [B|B].
    + rewrite (V0 B), gen_high by (try lra; apply Ht'; lra). rewrite Rminus_eq_0, Rabs_R0. exact Hq.
    + rewrite (k_is_ratio L lam n k j l) by (auto; try lia; try lra; rewrite ?Hr; lia).
      apply ratio_err; auto. split; apply Rnot_le_lt; intros H; [apply Ht in H|apply Ht' in H]; lra.
Qed.

(*@ C50_generating_function_converges *)
Lemma k_converges : forall lam tol, (1 < lam)%R -> (0 < tol)%R ->
  exists n0, forall n L k j l, n0 <= n -> 1 <= L ->
    k_lam L lam n = Ok k -> 0 <= j < rows k -> 0 <= l < L ->
    (Rabs (get2 k j l - generating lam (IZR l / powerRZ lam j)) < tol)%R.
Proof.
  intros lam tol Hl Ht. set (A := (4 * lam * ((lam + 3) ^ 2 + 21))%R).
  assert (HA : (0 < A)%R) by (unfold A; pose proof (pow2_ge_0 (lam + 3)); nra).
  exists (Z.max 12 (up (A / tol))). intros n L k j l Hn HL Ek Hj Hll.
  eapply Rle_lt_trans; [apply (k_accuracy L lam n k j l); auto; lia|].
  unfold quad_error. fold A. pose proof (archimed (A / tol)) as [Hu _].
  assert (Hn1 : (A / tol < IZR n)%R) by (eapply Rlt_le_trans; [exact Hu|apply IZR_le; lia]).
  pose proof (n_pos n ltac:(lia)) as Hn2.
  apply Rmult_lt_reg_r with (IZR n ^ 2)%R; [nra|]. unfold Rdiv at 1. rewrite Rmult_assoc, Rinv_l, Rmult_1_r by nra.
  assert (A < tol * IZR n)%R; [|nra].
  replace A with (tol * (A / tol))%R by (field; lra). apply Rmult_lt_compat_l; lra.
Qed.

Definition eps (lam : R) : R := quad_error lam 300.

Section F.
Variables (L : Z) (lam : R) (J : Z) (k : arr2 R).
Hypothesis (HL : 1 <= L) (Hl : (1 < lam)%R) (EJ : j_max L lam = Ok J) (Ek : k_lam L lam 300 = Ok k).
Let K (j l : Z) := generating lam (IZR l / powerRZ lam j).

Lemma k_rows : rows k = J + 2.
Proof.
  destruct (generating_values L lam 300 HL Hl ltac:(lia)) as (J' & k' & EJ' & Ek' & Hs & _).
  rewrite Ek in Ek'. apply Ok_inj in Ek'. subst k'. rewrite EJ in EJ'. apply Ok_inj in EJ'. subst J'. now injection Hs.
Qed.
Lemma k_near j l : 0 <= j <= J + 1 -> 0 <= l < L -> (K j l - eps lam <= get2 k j l <= K j l + eps lam)%R.
Proof.
  intros Hj Hll. pose proof (k_accuracy L lam 300 k j l HL Hl ltac:(lia) Ek ltac:(rewrite k_rows; lia) Hll) as H.
  apply Rabs_le_inv in H. fold (K j l) (eps lam) in H. lra.
Qed.
Lemma K_range j l : 0 <= l -> (0 <= K j l <= 1)%R.
Proof.
  intros H. apply gen_range; auto. apply Rdiv_le_0_compat; [apply (IZR_le 0); lia|apply pw_pos; lra].
Qed.
Lemma K_step j l : 0 <= l -> (K j l <= K (j + 1) l)%R.
Proof.
  intros H. assert (H0 : (0 <= IZR l)%R) by now apply (IZR_le 0). pose proof (pw_pos lam j ltac:(lra)).
  apply gen_mono; auto. rewrite powerRZ_add, powerRZ_1 by lra. split.
  - apply Rdiv_le_0_compat; nra.
  - unfold Rdiv. apply Rmult_le_compat_l; auto. apply Rinv_le_contravar; nra.
Qed.
Lemma K_dec j l : 1 <= l -> (K j l <= K j (l - 1))%R.
Proof.
  intros H. assert (H0 : (0 <= IZR (l - 1))%R) by (apply (IZR_le 0); lia). pose proof (pw_pos lam j ltac:(lra)).
  apply gen_mono; auto. rewrite minus_IZR in *. split.
  - apply Rdiv_le_0_compat; lra.
  - unfold Rdiv. apply Rmult_le_compat_r; [left; now apply Rinv_0_lt_compat|lra].
Qed.
(** where a difference is negative, the multipole is below lam^j *)
Lemma neg_diff j l : 0 <= j <= J -> 0 <= l < L -> (get2 k (j + 1) l < get2 k j l)%R ->
  (1 < get2 k j l)%R /\ (IZR l < powerRZ lam j)%R.
Proof.
  intros Hj Hll Hneg.
  destruct (generating_values L lam 300 HL Hl ltac:(lia)) as (J' & k' & EJ' & Ek' & Hs & HV).
  rewrite Ek in Ek'. apply Ok_inj in Ek'. subst k'. rewrite EJ in EJ'. apply Ok_inj in EJ'. subst J'.
  destruct (HV j l ltac:(lia) Hll) as (V1 & V0 & _). destruct (HV (j + 1) l ltac:(lia) Hll) as (W1 & W0 & W).
  replace (j + 1 - 1) with j in W1 by lia.
  destruct (Rle_dec (powerRZ lam j) (IZR l)) as [B|B].
  - exfalso. rewrite V0 in Hneg by auto. destruct (Rle_dec (powerRZ lam (j + 1)) (IZR l)) as [D|D]; [rewrite W0 in Hneg by auto; lra|].
    specialize (W ltac:(lra)). lra.
  - rewrite W1 in Hneg by lra. split; lra.
Qed.
Lemma k_one j l : 0 <= j <= J -> 0 <= l < L -> (IZR l <= powerRZ lam j)%R -> get2 k (j + 1) l = 1%R.
Proof.
  intros Hj Hll H.
  destruct (generating_values L lam 300 HL Hl ltac:(lia)) as (J' & k' & EJ' & Ek' & Hs & HV).
  rewrite Ek in Ek'. apply Ok_inj in Ek'. subst k'. rewrite EJ in EJ'. apply Ok_inj in EJ'. subst J'.
  destruct (HV (j + 1) l ltac:(lia) Hll) as (W1 & _). apply W1. now replace (j + 1 - 1) with j by lia.
Qed.
Lemma k_nonneg j l : 0 <= j <= J + 1 -> 0 <= l < L -> (0 <= get2 k j l)%R.
Proof.
  intros Hj Hll.
  destruct (generating_values L lam 300 HL Hl ltac:(lia)) as (J' & k' & EJ' & Ek' & Hs & HV).
  rewrite Ek in Ek'. apply Ok_inj in Ek'. subst k'. rewrite EJ in EJ'. apply Ok_inj in EJ'. subst J'.
  destruct (HV j l ltac:(lia) Hll) as (_ & V0 & V). destruct (Rle_dec (powerRZ lam j) (IZR l)); [rewrite V0; lra|left; apply V; lra].
Qed.
Lemma eps_pos : (0 <= eps lam)%R.
Proof. unfold eps, quad_error. pose proof (pow2_ge_0 (lam + 3)). apply Rdiv_le_0_compat; [nra|lra]. Qed.

(** a copied value of the looped construction is small *)
Lemma copied_small J_min psi phi : 0 <= J_min -> filters_axisym L J_min lam = Ok (psi, phi) ->
  forall j l, J_min <= j <= J -> 0 <= l < L -> (get2 k (j + 1) l < get2 k j l)%R ->
  (0 <= get2 psi j l ^ 2 <= 2 * eps lam)%R.
Proof.
  intros HJm EF j l Hj Hl0. assert (Hl1 : 0 <= l) by lia. revert l Hl1 Hl0. apply (Z_lt_induction (fun l => 0 <= l < L -> (get2 k (j + 1) l < get2 k j l)%R -> (0 <= get2 psi j l ^ 2 <= 2 * eps lam)%R)).
  - intros l IH Hll Hneg. split; [apply pow2_ge_0|].
    destruct (loop_from_k L lam J_min J psi phi k HL Hl EF Ek EJ l Hll) as (_ & _ & HP).
    destruct (HP j Hj) as [_ HN]. destruct (HN Hneg) as [H1 ->].
    destruct (Rle_dec (get2 k j (l - 1)) (get2 k (j + 1) (l - 1))) as [A|A].
    + destruct (loop_from_k L lam J_min J psi phi k HL Hl EF Ek EJ (l - 1) ltac:(lia)) as (_ & _ & HP').
      destruct (HP' j Hj) as [HA _]. rewrite HA by exact A. rewrite pow2_sqrt by lra.
      destruct (neg_diff j l ltac:(lia) Hll Hneg) as [B1 B2].
      rewrite k_one by (try lia; rewrite minus_IZR; lra).
      pose proof (k_near j l ltac:(lia) Hll). pose proof (k_near j (l - 1) ltac:(lia) ltac:(lia)).
      pose proof (K_dec j l H1). lra.
    + apply IH; [lia|lia|lra].
Qed.
End F.

(*@ C50_vectorised_filters_accuracy *)
Lemma vec_accuracy : forall L lam J_min J psi phi, 1 <= L -> (1 < lam)%R ->
  filters_axisym_vectorised L J_min lam = Ok (psi, phi) -> j_max L lam = Ok J ->
  forall l, 0 <= l < L ->
    (Rabs (get1 phi l ^ 2 - generating lam (IZR l / powerRZ lam J_min)) <= quad_error lam 300)%R /\
    forall j, 0 <= j <= J ->
      (Rabs (get2 psi j l ^ 2 - (generating lam (IZR l / powerRZ lam (j + 1)) - generating lam (IZR l / powerRZ lam j)))
       <= 2 * quad_error lam 300)%R.
Proof.
  intros L lam J_min J psi phi HL Hl EF EJ l Hll.
  destruct (inv_vec lam L J_min Hl HL psi phi EF) as (J1 & EJ1 & HJ & _ & _). assert (J1 = J) as -> by (eapply same_J; eauto).
  destruct (generating_values L lam 300 HL Hl ltac:(lia)) as (J' & k & EJ' & Ek & _ & HVk). rewrite EJ in EJ'. apply Ok_inj in EJ'. subst J'.
  destruct (vec_from_k L lam J_min J psi phi k HL Hl EF Ek EJ l Hll) as [HP HS]. fold (eps lam). split.
  - rewrite HP, pow2_sqrt by (apply (k_nonneg L lam J k); auto; lia).
    pose proof (k_near L lam J k HL Hl EJ Ek J_min l ltac:(lia) Hll). apply Rabs_le. lra.
  - intros j Hj. rewrite HS by exact Hj. rewrite pow2_sqrt by apply Rmax_l.
    pose proof (k_near L lam J k HL Hl EJ Ek j l ltac:(lia) Hll). pose proof (k_near L lam J k HL Hl EJ Ek (j + 1) l ltac:(lia) Hll).
    pose proof (K_step lam Hl j l ltac:(lia)). apply Rabs_le. unfold Rmax. destruct (Rle_dec _ _); lra.
Qed.

(*@ C50_looped_filters_accuracy *)
Lemma loop_accuracy : forall L lam J_min J psi phi, 1 <= L -> (1 < lam)%R ->
  filters_axisym L J_min lam = Ok (psi, phi) -> j_max L lam = Ok J ->
  forall l, 0 <= l < L ->
    (Rabs (get1 phi l ^ 2 - generating lam (IZR l / powerRZ lam J_min)) <= quad_error lam 300)%R /\
    forall j, J_min <= j <= J ->
      (Rabs (get2 psi j l ^ 2 - (generating lam (IZR l / powerRZ lam (j + 1)) - generating lam (IZR l / powerRZ lam j)))
       <= 2 * quad_error lam 300)%R.
Proof.
  intros L lam J_min J psi phi HL Hl EF EJ l Hll.
  destruct (inv_axi lam L J_min Hl HL psi phi EF) as (J1 & EJ1 & HJ & _ & _). assert (J1 = J) as -> by (eapply same_J; eauto).
  destruct (generating_values L lam 300 HL Hl ltac:(lia)) as (J' & k & EJ' & Ek & _ & HVk). rewrite EJ in EJ'. apply Ok_inj in EJ'. subst J'.
  destruct (loop_from_k L lam J_min J psi phi k HL Hl EF Ek EJ l Hll) as (HP & _ & HS). fold (eps lam). split.
  - rewrite HP, pow2_sqrt by (apply (k_nonneg L lam J k); auto; lia).
    pose proof (k_near L lam J k HL Hl EJ Ek J_min l ltac:(lia) Hll). apply Rabs_le. lra.
  - intros j Hj. destruct (HS j Hj) as [HA _].
    pose proof (k_near L lam J k HL Hl EJ Ek j l ltac:(lia) Hll). pose proof (k_near L lam J k HL Hl EJ Ek (j + 1) l ltac:(lia) Hll).
    pose proof (K_step lam Hl j l ltac:(lia)). apply Rabs_le.
    destruct (Rle_dec (get2 k j l) (get2 k (j + 1) l)) as [A|A].
    + rewrite HA by exact A. rewrite pow2_sqrt by lra. lra.
    + pose proof (copied_small L lam J k HL Hl EJ Ek J_min psi phi ltac:(lia) EF j l Hj Hll ltac:(lra)). lra.
Qed.

(*@E C50_example *)
Lemma ex_accuracy : exists k, k_lam 5 2 300 = Ok k /\ rows k = 5 /\
  (Rabs (get2 k 2 3 - generating 2 (3 / 4)) <= 1 / 200)%R /\ (0 < generating 2 (3 / 4) < 1)%R.
Proof.
  destruct (generating_values 5 2 300 ltac:(lia) ltac:(lra) ltac:(lia)) as (J & k & EJ & Ek & Hs & _).
  rewrite (proj1 j_max_5_2) in EJ. apply Ok_inj in EJ. subst J. injection Hs as Hr _. exists k. split; [exact Ek|]. split; [exact Hr|]. split.
  - pose proof (k_accuracy 5 2 300 k 2 3 ltac:(lia) ltac:(lra) ltac:(lia) Ek ltac:(lia) ltac:(lia)) as H.
    replace (powerRZ 2 2) with 4%R in H by (simpl; lra). unfold quad_error in H. lra.
  - assert (P : forall u v, (1 / 2 <= u < v)%R -> (v <= 1)%R -> (0 < RInt (tiling 2) u v)%R).
    { intros u v H1 H2. apply RInt_gt_0; [lra| |intros; apply tiling_continuous; lra].
      intros x Hx. unfold tiling. apply Rmult_lt_0_compat; [|apply Rinv_0_lt_compat; lra].
      fold (sg 2 x). rewrite bump_in by (apply sg_in; lra). apply exp_pos. }
    pose proof (P (1 / 2) (3 / 4) ltac:(lra) ltac:(lra))%R as P1. pose proof (P (3 / 4) 1 ltac:(lra) ltac:(lra))%R as P2.
    assert (E : (RInt (tiling 2) (1 / 2) 1 = RInt (tiling 2) (1 / 2) (3 / 4) + RInt (tiling 2) (3 / 4) 1)%R).
    { symmetry. apply (RInt_Chasles (tiling 2)); apply tiling_ex; lra. }
    unfold generating. rewrite E. split; [apply Rdiv_lt_0_compat; lra|].
    apply Rmult_lt_reg_r with (RInt (tiling 2) (1 / 2) (3 / 4) + RInt (tiling 2) (3 / 4) 1)%R; [lra|].
    unfold Rdiv at 1. rewrite Rmult_assoc, Rinv_l by lra. lra.
Qed.

(*% ** C51: the filters are admissible up to the quadrature error *)

(*@ C51_admissibility_within_quadrature_error *)
Lemma adm_near : forall L lam J_min J psi phi, 1 <= L -> (1 < lam)%R ->
  filters_axisym_vectorised L J_min lam = Ok (psi, phi) -> j_max L lam = Ok J ->
  forall l, 0 <= l < L -> (1 <= axi_total psi phi J_min J l <= 1 + quad_error lam 300)%R.
Proof.
  intros L lam J_min J psi phi HL Hl EF EJ l Hll. fold (eps lam).
  destruct (inv_vec lam L J_min Hl HL psi phi EF) as (J1 & EJ1 & HJ & _ & _). assert (J1 = J) as -> by (eapply same_J; eauto).
  destruct (generating_values L lam 300 HL Hl ltac:(lia)) as (J' & k & EJ' & Ek & _ & HVk). rewrite EJ in EJ'. apply Ok_inj in EJ'. subst J'.
  pose proof (eps_pos lam Hl).
  destruct (admissibility L lam J_min J psi phi k HL Hl EF Ek EJ l Hll) as [[_ ->]|(j & Hj & _ & H1 & ->)]; [lra|].
  pose proof (k_near L lam J k HL Hl EJ Ek j l ltac:(lia) Hll). pose proof (K_range lam Hl j l ltac:(lia)). lra.
Qed.

(*@ C51_admissibility_looped_within_quadrature_error *)
Lemma adm_near_looped : forall L lam J_min J psi phi, 1 <= L -> (1 < lam)%R ->
  filters_axisym L J_min lam = Ok (psi, phi) -> j_max L lam = Ok J ->
  forall l, 0 <= l < L -> (1 <= axi_total psi phi J_min J l <= 1 + 3 * quad_error lam 300)%R.
Proof.
  intros L lam J_min J psi phi HL Hl EF EJ l Hll. fold (eps lam).
  destruct (inv_axi lam L J_min Hl HL psi phi EF) as (J1 & EJ1 & HJ & _ & _). assert (J1 = J) as -> by (eapply same_J; eauto).
  destruct (generating_values L lam 300 HL Hl ltac:(lia)) as (J' & k & EJ' & Ek & _ & HVk). rewrite EJ in EJ'. apply Ok_inj in EJ'. subst J'.
  pose proof (eps_pos lam Hl).
  destruct (admissibility_looped L lam J_min J psi phi k HL Hl EF Ek EJ l Hll) as [[_ ->]|(j & Hj & H1 & ->)]; [lra|].
  pose proof (k_near L lam J k HL Hl EJ Ek j l ltac:(lia) Hll) as HN. pose proof (K_range lam Hl j l ltac:(lia)) as HK.
  destruct (HVk j l ltac:(lia) Hll) as (_ & V0 & _).
  assert (Hlt : (IZR l < powerRZ lam j)%R) by (apply Rnot_le_lt; intros H2; rewrite V0 in H1 by exact H2; lra).
  assert (Hneg : (get2 k (j + 1) l < get2 k j l)%R) by (rewrite (k_one L lam J k HL Hl EJ Ek) by (try lia; lra); exact H1).
  destruct (loop_from_k L lam J_min J psi phi k HL Hl EF Ek EJ l Hll) as (_ & _ & HS).
  destruct (HS j Hj) as [_ HC]. destruct (HC Hneg) as [_ EC]. rewrite <- EC.
  pose proof (copied_small L lam J k HL Hl EJ Ek J_min psi phi ltac:(lia) EF j l Hj Hll Hneg). lra.
Qed.

(*@ C51_directional_admissibility_within_quadrature_error *)
Lemma dir_near : forall L N lam J_min J spin psi phi,
  1 <= L -> 1 <= N -> (1 < lam)%R ->
  is_filters L N J_min lam spin 0 psi phi -> j_max L lam = Ok J ->
  forall l, Z.abs spin <= l < L -> (1 <= dir_total L psi phi J_min J l <= 1 + 3 * quad_error lam 300)%R.
Proof.
  intros L N lam J_min J spin psi phi HL HN Hl HF EJ l Hll. pose proof (eps_pos lam Hl) as Hq. unfold eps in Hq.
  destruct (generating_values L lam 300 HL Hl ltac:(lia)) as (J' & k & EJ' & Ek & _ & HVk). rewrite EJ in EJ'. apply Ok_inj in EJ'. subst J'.
  assert (V : filters_directional_vectorised L N J_min lam spin 0 = Ok (psi, phi) ->
    (1 <= dir_total L psi phi J_min J l <= 1 + 3 * quad_error lam 300)%R).
  { intros EF. destruct (dir_adm_vec L N lam J_min J spin 0 psi phi k HL HN Hl EF Ek EJ l Hll) as [[_ ->]|(j & Hj & _ & H1 & ->)]; [lra|].
    destruct (inv_dvec lam L J_min Hl HL N spin 0 psi phi HN EF) as (J1 & EJ1 & HJ & _). assert (J1 = J) as -> by (eapply same_J; eauto).
    pose proof (k_near L lam J k HL Hl EJ Ek j l ltac:(lia) ltac:(lia)) as HN'. pose proof (K_range lam Hl j l ltac:(lia)).
    unfold eps in HN'. lra. }
  destruct HF as [EF|[EF|EF]]; [|now apply V|].
  - destruct (inv_dir lam L J_min Hl HL N spin 0 psi phi HN EF) as (J1 & EJ1 & HJ & _). assert (J1 = J) as -> by (eapply same_J; eauto).
    destruct (valid_range L N lam J J_min spin 0 HL HN Hl EJ HJ) as ((apsi & aphi & EA & _) & _).
    rewrite (dir_adm_looped L N lam J_min J spin 0 psi phi apsi aphi HL HN Hl EF EA EJ l) by lia.
    pose proof (adm_near_looped L lam J_min J apsi aphi HL Hl EA EJ l ltac:(lia)) as H.
    replace (spin_ratio l 0) with 1%R; [lra|]. unfold spin_ratio. rewrite Z.add_0_r, Z.sub_0_r. symmetry. apply Rinv_r.
    unfold factorial. apply not_0_INR. apply fact_neq_0.
  - apply V. apply jax_to_vec; auto.
Qed.

Lemma scale_near L N lam J_min J spin psi phi flm : 1 <= L -> 1 <= N <= L -> (1 < lam)%R ->
  is_filters L N J_min lam spin 0 psi phi -> j_max L lam = Ok J -> harmonic L spin flm ->
  coefs_near L (3 * quad_error lam 300) (scale_l (dir_total L psi phi J_min J) flm) flm.
Proof.
  intros HL HN Hl HF EJ (Hr & Hc & Hz). split; [reflexivity|]. intros l m Hll Hm. unfold scale_l. rewrite get2_mk by lia.
  set (z := get2 flm l (L - 1 + m)).
  replace (Cminus (Cmult (RtoC (dir_total L psi phi J_min J l)) z) z) with (Cmult (RtoC (dir_total L psi phi J_min J l - 1)) z)
    by (rewrite RtoC_minus; ring). rewrite Cmod_mult, Cmod_R.
  destruct (Ceq_dec z (RtoC 0)) as [E|E]; [rewrite E, Cmod_0; lra|].
  destruct (Hz l m E) as [Hs _]. pose proof (dir_near L N lam J_min J spin psi phi HL ltac:(lia) Hl HF EJ l Hs).
  apply Rmult_le_compat_r; [apply Cmod_ge_0|]. apply Rabs_le. pose proof (eps_pos lam Hl) as Hq. unfold eps in Hq. lra.
Qed.

(*% coefficients reconstructed from exact wavelet coefficients *)
(*@ C51_reconstruction_within_quadrature_error *)
Lemma recon_near : forall L N lam J_min J spin mr psi phi flm sz Ls,
  1 <= L -> 1 <= N <= L -> (1 < lam)%R ->
  is_filters L N J_min lam spin 0 psi phi -> j_max L lam = Ok J ->
  (forall j, LN_j L j N lam mr = Ok (sz j)) -> scal_bandlimit L J_min lam mr = Ok Ls ->
  harmonic L spin flm ->
  coefs_near L (3 * quad_error lam 300)
    (synthesised L J_min J psi phi sz (wcoefs L psi flm sz) Ls (scaling_coefs L phi flm Ls)) flm.
Proof.
  intros L N lam J_min J spin mr psi phi flm sz Ls HL HN Hl HF EJ Hsz HLs Hh.
  rewrite (proj1 (reconstruction L N lam J_min J spin 0 mr psi phi flm sz Ls HL HN Hl HF EJ Hsz HLs Hh)).
  eapply scale_near; eauto.
Qed.

(*% synthesis after analysis returns a field whose coefficients are that close to those of the input *)
(*@ C51_round_trip_vectorised *)
Lemma rt_near_vec : forall O f flm L N lam J_min spin s nside reality mr psi phi,
  1 <= L -> 1 <= N <= L -> (1 < lam)%R ->
  filters_directional_vectorised L N J_min lam spin 0 = Ok (psi, phi) ->
  exact_b O spin s nside reality ->
  is_harmonic L spin reality flm -> b_inv O flm L spin s nside reality = Ok f ->
  exists w sc glm,
    analysis O f L N J_min lam spin 0 s nside reality mr false = Ok (w, sc) /\
    synthesis O w sc L N J_min lam spin 0 s nside reality mr = b_inv O glm L spin s nside reality /\
    coefs_near L (3 * quad_error lam 300) glm flm.
Proof.
  intros O f flm L N lam J_min spin s nside reality mr psi phi HL HN Hl EF HO Hh Ef.
  destruct (j_max_spec L lam HL Hl) as (J & EJ & _).
  destruct (rt_vec O f flm L N lam J_min J spin s nside reality mr psi phi HL HN Hl EF EJ HO Hh Ef) as (w & sc & EA & ES & _).
  exists w, sc, (scale_l (dir_total L psi phi J_min J) flm). split; [exact EA|]. split; [exact ES|].
  eapply scale_near; eauto; [right; left; exact EF|apply Hh].
Qed.

(*@ C51_round_trip_looped *)
Lemma rt_near_loop : forall O f flm L N lam J_min spin s nside (reality : bool) mr psi phi,
  1 <= L -> 1 <= N <= L -> (1 < lam)%R ->
  filters_directional L N J_min lam spin 0 = Ok (psi, phi) ->
  exact_b O spin s nside reality ->
  (reality = true -> spin = 0 /\ reads_nonnegative O s nside) ->
  is_harmonic L spin reality flm -> b_inv O flm L spin s nside reality = Ok f ->
  exists w sc glm,
    analysis_looped O f L N J_min lam spin 0 s nside reality mr = Ok (w, sc) /\
    synthesis_looped O w sc L N J_min lam spin 0 s nside reality mr = b_inv O glm L spin s nside reality /\
    coefs_near L (3 * quad_error lam 300) glm flm.
Proof.
  intros O f flm L N lam J_min spin s nside reality mr psi phi HL HN Hl EF HO HR Hh Ef.
  destruct (j_max_spec L lam HL Hl) as (J & EJ & _).
  destruct (rt_loop O f flm L N lam J_min J spin 0 s nside reality mr psi phi HL HN Hl EF EJ HO HR Hh Ef) as (w & sc & EA & ES & _).
  exists w, sc, (scale_l (dir_total L psi phi J_min J) flm). split; [exact EA|]. split; [exact ES|].
  eapply scale_near; eauto; [left; exact EF|apply Hh].
Qed.

(*@ C51_round_trip_jax *)
Lemma rt_near_jax : forall O f flm L N lam J_min spin s nside reality psi phi pa ps qa qs,
  1 <= L -> 1 <= N <= L -> (1 < lam)%R ->
  is_filters L N J_min lam spin 0 psi phi ->
  exact_j O spin s nside reality ->
  (scal_bandlimit L J_min lam true = Ok 1 -> one_point spin reality (fun y => j_fwd O y 1 spin nside s reality)) ->
  generate_wigner_precomputes L N J_min lam s nside false reality = Ok qa -> (pa = None \/ pa = Some qa) ->
  generate_wigner_precomputes L N J_min lam s nside true reality = Ok qs -> (ps = None \/ ps = Some qs) ->
  is_harmonic L spin reality flm -> j_inv O flm L spin nside s reality = Ok f ->
  exists w sc glm,
    jax_analysis O f L N J_min lam spin s nside reality (Some (psi, phi)) pa = Ok (w, sc) /\
    jax_synthesis O w sc L N J_min lam spin s nside reality (Some (psi, phi)) ps = j_inv O glm L spin nside s reality /\
    coefs_near L (3 * quad_error lam 300) glm flm.
Proof.
  intros O f flm L N lam J_min spin s nside reality psi phi pa ps qa qs HL HN Hl HF HO H1 Ga Pa Gs Ps Hh Ef.
  destruct (j_max_spec L lam HL Hl) as (J & EJ & _).
  destruct (rt_jax O f flm L N lam J_min J spin 0 s nside reality psi phi pa ps qa qs HL HN Hl HF EJ HO H1 Ga Pa Gs Ps Hh Ef) as (w & sc & EA & ES & _).
  exists w, sc, (scale_l (dir_total L psi phi J_min J) flm). split; [exact EA|]. split; [exact ES|].
  eapply scale_near; eauto; apply Hh.
Qed.

(*@ C51_round_trip_precompute *)
Lemma rt_near_pre : forall O f flm L N lam J_min s nside reality psi phi pa ps,
  1 <= L -> 1 <= N <= L -> (1 < lam)%R ->
  is_filters L N J_min lam 0 0 psi phi ->
  exact_p O s nside reality ->
  (scal_bandlimit L J_min lam true = Ok 1 ->
   one_point 0 reality (fun y => p_fwd O y (SKern 1 0 reality s nside true) 1 s reality 0 nside)) ->
  generate_full_precomputes L N J_min lam s nside false reality false = Ok pa ->
  generate_full_precomputes L N J_min lam s nside true reality false = Ok ps ->
  is_harmonic L 0 reality flm -> p_inv O flm (SKern L 0 reality s nside false) L s reality 0 nside = Ok f ->
  exists w sc glm,
    pre_analysis O f L N J_min lam 0 s nside reality (Some (psi, phi)) (Some pa) = Ok (w, sc) /\
    pre_synthesis O w sc L N J_min lam 0 s nside reality (Some (psi, phi)) (Some ps)
    = p_inv O glm (SKern L 0 reality s nside false) L s reality 0 nside /\
    coefs_near L (3 * quad_error lam 300) glm flm.
Proof.
  intros O f flm L N lam J_min s nside reality psi phi pa ps HL HN Hl HF HO H1 Ga Gs Hh Ef.
  destruct (j_max_spec L lam HL Hl) as (J & EJ & _).
  destruct (rt_precompute O f flm L N lam J_min J 0 s nside reality psi phi pa ps HL HN Hl HF EJ HO H1 Ga Gs Hh Ef) as (w & sc & EA & ES & _).
  exists w, sc, (scale_l (dir_total L psi phi J_min J) flm). split; [exact EA|]. split; [exact ES|].
  eapply scale_near; eauto; apply Hh.
Qed.

(*% for lam = 2 the allowed deviation is below 1/200, at every band-limit; L = 100 reaches scale J = 7 *)
(*@E C51_example *)
Lemma ex_near : (quad_error 2 300 <= 1 / 200)%R /\ exists psi phi, filters_axisym_vectorised 100 0 2 = Ok (psi, phi) /\
  forall l, 0 <= l < 100 -> (1 <= axi_total psi phi 0 7 l <= 1 + 1 / 200)%R.
Proof.
  assert (HQ : (quad_error 2 300 <= 1 / 200)%R) by (unfold quad_error; lra). split; [exact HQ|].
  assert (EJ : j_max 100 2 = Ok 7) by (apply j_max_iff; [lia|lra|]; simpl; lra).
  destruct (valid_range 100 1 2 7 0 0 0) as (_ & (p & q & E & _) & _); auto; try lia; try lra.
  exists p, q. split; [exact E|]. intros l Hll. pose proof (adm_near 100 2 0 7 p q ltac:(lia) ltac:(lra) E EJ l Hll). lra.
Qed.

(*% the hypotheses of the round trips are met by the toy library of Demo.v; l = 5 lies in the lower half of its octave *)
(*@E C51_round_trip_example *)
Lemma ex_rt_near : exists f w sc glm, b_inv demo (demo_flm 7) 7 0 MW None true = Ok f /\
  analysis demo f 7 3 1 2 0 0 MW None true true false = Ok (w, sc) /\
  synthesis demo w sc 7 3 1 2 0 0 MW None true true = b_inv demo glm 7 0 MW None true /\
  coefs_near 7 (3 * quad_error 2 300) glm (demo_flm 7) /\ get2 (demo_flm 7) 5 (7 - 1 + 1) <> RtoC 0.
Proof.
  assert (EJ : j_max 7 2 = Ok 3) by (apply j_max_iff; [lia|lra|]; simpl; lra).
  destruct (valid_range 7 3 2 3 1 0 0) as (_ & _ & _ & _ & (p & q & E & _) & _); auto; try lia; try lra.
  assert (Hs : equiangular MW) by now left. pose proof (demo_exact_b 0 MW true Hs) as HO. pose proof (demo_flm_ok 7 true) as Hh.
  destruct (proj1 HO 7 ltac:(lia) (demo_flm 7) Hh) as (f & Ef & _).
  destruct (rt_near_vec demo f (demo_flm 7) 7 3 2 1 0 MW None true true p q) as (w & sc & glm & A & S & N); auto; try lia; try lra.
  exists f, w, sc, glm. repeat split; auto; try apply N. apply demo_flm_ne; lia.
Qed.
