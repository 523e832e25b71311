(** * Proofs about filters.py: generating function and axisymmetric filters *)

From Coq Require Import ZArith Reals List Bool Lia Lra.
From Coquelicot Require Import Rcomplements Complex.
From Flocq Require Import Core.Raux.
From Verif Require Import Py PyFacts ModelSamples SamplesFacts ModelFilters.
Import ListNotations.
Open Scope Z_scope.

(** ** Sums *)

Lemma zrsum_nonneg n f : (forall k, 0 <= k < n -> (0 <= f k)%R) -> (0 <= zrsum n f)%R.
Proof.
  intros H. destruct (Z_lt_le_dec n 0) as [Hn|Hn].
  - unfold zrsum. replace (Z.to_nat n) with 0%nat by lia. simpl. lra.
  - revert H. pattern n. apply natlike_ind; auto.
    + intros. rewrite zrsum_0. lra.
    + intros x Hx IH H. unfold Z.succ in *. rewrite zrsum_S by lia.
      assert (0 <= zrsum x f)%R by (apply IH; intros; apply H; lia).
      assert (0 <= f x)%R by (apply H; lia). lra.
Qed.

Lemma zrsum_pos n f k0 : 0 <= k0 < n -> (forall k, 0 <= k < n -> (0 <= f k)%R) ->
  (0 < f k0)%R -> (0 < zrsum n f)%R.
Proof.
  intros Hk H Hp. assert (Hn : 0 <= n) by lia. revert Hk H. pattern n. apply natlike_ind; auto.
  - lia.
  - intros x Hx IH Hk H. unfold Z.succ in *. rewrite zrsum_S by lia.
    assert (0 <= f x)%R by (apply H; lia).
    destruct (Z.eq_dec k0 x) as [->|].
    + assert (0 <= zrsum x f)%R by (apply zrsum_nonneg; intros; apply H; lia). lra.
    + assert (0 < zrsum x f)%R by (apply IH; [lia | intros; apply H; lia]). lra.
Qed.

Lemma zrsum_le n f g : (forall k, 0 <= k < n -> (f k <= g k)%R) -> (zrsum n f <= zrsum n g)%R.
Proof.
  intros H. destruct (Z_lt_le_dec n 0) as [Hn|Hn].
  - unfold zrsum. replace (Z.to_nat n) with 0%nat by lia. simpl. lra.
  - revert H. pattern n. apply natlike_ind; auto.
    + intros. rewrite !zrsum_0. lra.
    + intros x Hx IH H. unfold Z.succ in *. rewrite !zrsum_S by lia.
      assert (zrsum x f <= zrsum x g)%R by (apply IH; intros; apply H; lia).
      assert (f x <= g x)%R by (apply H; lia). lra.
Qed.

Lemma zrsum_zero n f : (forall k, 0 <= k < n -> f k = 0%R) -> zrsum n f = 0%R.
Proof.
  intros H. rewrite (zrsum_ext n f (fun _ => 0%R)) by assumption.
  unfold zrsum. induction (Z.to_nat n); simpl; auto. rewrite IHn0. ring.
Qed.

Lemma zrsum_add n f g : (zrsum n f + zrsum n g = zrsum n (fun k => f k + g k))%R.
Proof.
  unfold zrsum. induction (Z.to_nat n); simpl; [ring|]. rewrite <- IHn0. ring.
Qed.
Lemma zrsum_mul n f c : (c * zrsum n f = zrsum n (fun k => c * f k))%R.
Proof.
  unfold zrsum. induction (Z.to_nat n); simpl; [ring|]. rewrite <- IHn0. ring.
Qed.
Lemma zrsum_split a b f : 0 <= a -> 0 <= b ->
  zrsum (a + b) f = (zrsum a f + zrsum b (fun k => f (a + k)%Z))%R.
Proof.
  intros Ha Hb. revert Ha. pattern b. apply natlike_ind; auto.
  - intros. rewrite Z.add_0_r, zrsum_0. ring.
  - intros x Hx IH Ha. unfold Z.succ. rewrite Z.add_assoc, !zrsum_S by lia. rewrite IH by lia. ring.
Qed.
Lemma zrsum_1 f : zrsum 1 f = f 0.
Proof. unfold zrsum. simpl. ring. Qed.
Lemma zrsum_head n f : 1 <= n -> zrsum n f = (f 0%Z + zrsum (n - 1) (fun k => f (k + 1)%Z))%R.
Proof.
  intros. replace n with (1 + (n - 1)) at 1 by lia. rewrite zrsum_split by lia. rewrite zrsum_1.
  f_equal. apply zrsum_ext. intros. f_equal. lia.
Qed.
Lemma zrsum_single n f k0 : 0 <= k0 < n -> (forall k, 0 <= k < n -> k <> k0 -> f k = 0%R) ->
  zrsum n f = f k0.
Proof.
  intros Hk H. replace n with (k0 + (1 + (n - k0 - 1))) by lia.
  rewrite !zrsum_split by lia. rewrite zrsum_1, Z.add_0_r.
  rewrite zrsum_zero by (intros; apply H; lia).
  rewrite zrsum_zero by (intros; apply H; lia). ring.
Qed.
Lemma zrsum_rev n f : zrsum n f = zrsum n (fun k => f (n - 1 - k)%Z).
Proof.
  destruct (Z_lt_le_dec n 0) as [Hn|Hn].
  { unfold zrsum. now replace (Z.to_nat n) with 0%nat by lia. }
  pattern n. apply natlike_ind; auto.
  intros x Hx IH. unfold Z.succ. rewrite zrsum_S by lia.
  rewrite (zrsum_head (x + 1) (fun k => f (x + 1 - 1 - k)%Z)) by lia.
  replace (x + 1 - 1) with x by lia. rewrite IH, Rplus_comm. f_equal; [f_equal; lia|].
  apply zrsum_ext. intros. f_equal. lia.
Qed.

(** ** The integrand *)

Definition sarg (lam t : R) : R := ((t - (1 / lam)) * (2 * lam / (lam - 1)) - 1)%R.
Definition gint (lam t : R) : R := (exp (- 2 / (1 - sarg lam t ^ 2)) / t)%R.

Section Quad.
Variable lam : R.
Hypothesis Hlam : (1 < lam)%R.

Lemma inv_lam : (0 < 1 / lam < 1)%R.
Proof.
  split; [apply Rdiv_lt_0_compat; lra|]. apply (Rmult_lt_reg_r lam); [lra|]. field_simplify; lra.
Qed.
Lemma slope_pos : (0 < 2 * lam / (lam - 1))%R.
Proof. apply Rdiv_lt_0_compat; lra. Qed.
Lemma sarg_lo : sarg lam (1 / lam) = (-1)%R.
Proof. unfold sarg. ring. Qed.
Lemma sarg_hi : sarg lam 1 = 1%R.
Proof. unfold sarg. field. lra. Qed.
Lemma sarg_inc t u : (t < u)%R -> (sarg lam t < sarg lam u)%R.
Proof.
  intros H. unfold sarg. pose proof slope_pos.
  assert ((t - 1 / lam) * (2 * lam / (lam - 1)) < (u - 1 / lam) * (2 * lam / (lam - 1)))%R
    by (apply Rmult_lt_compat_r; lra). lra.
Qed.
Lemma sarg_in t : (1 / lam < t < 1)%R -> (-1 < sarg lam t < 1)%R.
Proof.
  intros [H1 H2]. apply sarg_inc in H1, H2. rewrite sarg_lo in H1. rewrite sarg_hi in H2. lra.
Qed.
Lemma gint_pos t : (0 < t)%R -> (0 < gint lam t)%R.
Proof. intros. apply Rdiv_lt_0_compat; auto. apply exp_pos. Qed.

Lemma tiling_integrand_ok t : (1 / lam < t < 1)%R -> tiling_integrand t lam = Ok (gint lam t).
Proof.
  intros Ht. pose proof inv_lam. pose proof (sarg_in t Ht). unfold tiling_integrand.
  rewrite !(reqb_false lam), (reqb_false (lam - 1)) by lra.
  fold (sarg lam t). cbv zeta.
  rewrite (reqb_false (1 - sarg lam t ^ 2)), (reqb_false t) by (simpl; nra). reflexivity.
Qed.

Lemma not_end_spec x : BoolSpec (x <> 1 / lam /\ x <> 1)%R (x = 1 / lam \/ x = 1)%R (not_end x lam).
Proof.
  unfold not_end. destruct (reqb_spec x (1 / lam)), (reqb_spec x 1); constructor; auto.
Qed.

(** quadrature sum between a and b *)
Definition quadab (a b : R) (n : Z) : R :=
  zrsum n (fun i =>
    let h := ((b - a) / IZR n)%R in
    if not_end (a + IZR i * h) lam && not_end (a + IZR (i + 1) * h) lam
    then (gint lam (a + IZR i * h) + gint lam (a + IZR (i + 1) * h))%R * h / 2 else 0)%R.

Lemma point_in a b n i : (a <= b)%R -> 1 <= n -> 0 <= i <= n ->
  (a <= a + IZR i * ((b - a) / IZR n) <= b)%R.
Proof.
  intros Hab Hn Hi. assert (0 < IZR n)%R by (apply (IZR_lt 0); lia).
  assert (0 <= IZR i <= IZR n)%R by (split; apply IZR_le; lia).
  assert (0 <= (b - a) / IZR n)%R by (apply Rdiv_le_0_compat; lra).
  assert (IZR n * ((b - a) / IZR n) = b - a)%R by (field; lra).
  assert (IZR i * ((b - a) / IZR n) <= IZR n * ((b - a) / IZR n))%R by (apply Rmult_le_compat_r; lra).
  assert (0 <= IZR i * ((b - a) / IZR n))%R by (apply Rmult_le_pos; lra). lra.
Qed.

Lemma part_scaling_ok a b n : (1 / lam <= a)%R -> (a <= b)%R -> (b <= 1)%R -> 1 <= n ->
  part_scaling_fn a b n lam = Ok (quadab a b n).
Proof.
  intros Ha Hab Hb Hn. unfold part_scaling_fn. destruct (Z.eqb_spec n 0); [lia|].
  cbv zeta. destruct (reqb_spec a b) as [<-|Hne].
  - f_equal. symmetry. apply zrsum_zero. intros.
    cbv zeta. replace ((a - a) / IZR n)%R with 0%R by (unfold Rdiv; ring).
    destruct (_ && _); [|reflexivity]. unfold Rdiv. ring.
  - rewrite <- (Rplus_0_l (quadab a b n)). apply for_rsum; [lia|].
    intros i acc Hi. rewrite (reqb_false lam) by lra.
    pose proof (point_in a b n i Hab Hn ltac:(lia)) as P1.
    pose proof (point_in a b n (i + 1) Hab Hn ltac:(lia)) as P2.
    cbv beta zeta.
    destruct (not_end_spec (a + IZR i * ((b - a) / IZR n))) as [E1|E1]; cbn [andb];
      cbv iota; [|f_equal; ring].
    destruct (not_end_spec (a + IZR (i + 1) * ((b - a) / IZR n))) as [E2|E2];
      cbv iota; [|f_equal; ring].
    rewrite !tiling_integrand_ok by lra. reflexivity.
Qed.

Lemma quadab_nonneg a b n : (1 / lam <= a)%R -> (a <= b)%R -> 1 <= n -> (0 <= quadab a b n)%R.
Proof.
  intros Ha Hab Hn. pose proof inv_lam. apply zrsum_nonneg. intros i Hi. cbv zeta.
  destruct (_ && _); [|lra].
  pose proof (point_in a b n i Hab Hn ltac:(lia)) as P1.
  pose proof (point_in a b n (i + 1) Hab Hn ltac:(lia)) as P2.
  assert (0 < IZR n)%R by (apply (IZR_lt 0); lia).
  assert (0 <= (b - a) / IZR n)%R by (apply Rdiv_le_0_compat; lra).
  pose proof (gint_pos (a + IZR i * ((b - a) / IZR n)) ltac:(lra)).
  pose proof (gint_pos (a + IZR (i + 1) * ((b - a) / IZR n)) ltac:(lra)).
  apply Rmult_le_pos; [|lra]. apply Rmult_le_pos; lra.
Qed.

(** quadrature from a to 1 *)
Definition quad (a : R) (n : Z) : R := quadab a 1 n.

Lemma quad_1 n : quad 1 n = 0%R.
Proof.
  apply zrsum_zero. intros. cbv zeta. replace ((1 - 1) / IZR n)%R with 0%R by (unfold Rdiv; ring).
  destruct (_ && _); [|reflexivity]. unfold Rdiv. ring.
Qed.

(** inside, only the last panel (and the first one when a = 1/lam) is dropped *)
Lemma panel_in a n i : (1 / lam <= a < 1)%R -> 1 <= n -> 0 <= i < n ->
  (a = (1 / lam)%R -> 1 <= i) ->
  not_end (a + IZR i * ((1 - a) / IZR n)) lam = true.
Proof.
  intros Ha Hn Hi Hf. assert (0 < IZR n)%R by (apply (IZR_lt 0); lia).
  assert (0 < (1 - a) / IZR n)%R by (apply Rdiv_lt_0_compat; lra).
  assert (IZR n * ((1 - a) / IZR n) = 1 - a)%R by (field; lra).
  assert (IZR i < IZR n)%R by (apply IZR_lt; lia).
  assert (IZR i * ((1 - a) / IZR n) < IZR n * ((1 - a) / IZR n))%R by (apply Rmult_lt_compat_r; lra).
  destruct (not_end_spec (a + IZR i * ((1 - a) / IZR n))) as [E|E]; auto. exfalso.
  assert (0 <= IZR i)%R by (apply (IZR_le 0); lia).
  assert (0 <= IZR i * ((1 - a) / IZR n))%R by (apply Rmult_le_pos; lra).
  destruct E as [E|E]; [|lra].
  assert (a = 1 / lam)%R as Ea by lra. specialize (Hf Ea).
  assert (1 <= IZR i)%R by (apply (IZR_le 1); lia).
  assert (0 < IZR i * ((1 - a) / IZR n))%R by (apply Rmult_lt_0_compat; lra). lra.
Qed.

Lemma quad_pos a n : (1 / lam <= a < 1)%R -> 3 <= n -> (0 < quad a n)%R.
Proof.
  intros Ha Hn. pose proof inv_lam. unfold quad, quadab.
  assert (0 < IZR n)%R by (apply (IZR_lt 0); lia).
  assert (0 < (1 - a) / IZR n)%R by (apply Rdiv_lt_0_compat; lra).
  apply (zrsum_pos n _ 1); [lia| |].
  - intros i Hi. cbv zeta. destruct (_ && _); [|lra].
    pose proof (point_in a 1 n i ltac:(lra) ltac:(lia) ltac:(lia)) as P1.
    pose proof (point_in a 1 n (i + 1) ltac:(lra) ltac:(lia) ltac:(lia)) as P2.
    pose proof (gint_pos (a + IZR i * ((1 - a) / IZR n)) ltac:(lra)).
    pose proof (gint_pos (a + IZR (i + 1) * ((1 - a) / IZR n)) ltac:(lra)).
    apply Rmult_le_pos; [|lra]. apply Rmult_le_pos; lra.
  - cbv zeta. rewrite !panel_in by (auto; lia). simpl andb. cbv iota.
    pose proof (point_in a 1 n 1 ltac:(lra) ltac:(lia) ltac:(lia)) as P1.
    pose proof (point_in a 1 n (1 + 1) ltac:(lra) ltac:(lia) ltac:(lia)) as P2.
    pose proof (gint_pos (a + IZR 1 * ((1 - a) / IZR n)) ltac:(lra)).
    pose proof (gint_pos (a + IZR (1 + 1) * ((1 - a) / IZR n)) ltac:(lra)).
    apply Rmult_lt_0_compat; [|lra]. apply Rmult_lt_0_compat; lra.
Qed.

(** ** The generating function *)

Definition kv (n j l : Z) : R :=
  if rltb (IZR l) (powerRZ lam (j - 1)) then 1%R
  else if rltb (powerRZ lam j) (IZR l) then 0%R
  else (quad (IZR l / powerRZ lam j) n / quad (1 / lam) n)%R.

Lemma ratio_in j l : (powerRZ lam (j - 1) <= IZR l <= powerRZ lam j)%R ->
  (1 / lam <= IZR l / powerRZ lam j <= 1)%R.
Proof.
  intros [H1 H2]. assert (Hp : (0 < powerRZ lam j)%R) by (apply pw_pos; lra).
  rewrite pw_pred in H1 by lra. split.
  - apply (Rmult_le_reg_r (powerRZ lam j)); auto.
    replace (IZR l / powerRZ lam j * powerRZ lam j)%R with (IZR l) by (field; lra).
    replace (1 / lam * powerRZ lam j)%R with (powerRZ lam j / lam)%R by (field; lra). exact H1.
  - apply (Rmult_le_reg_r (powerRZ lam j)); auto.
    replace (IZR l / powerRZ lam j * powerRZ lam j)%R with (IZR l) by (field; lra). lra.
Qed.

Lemma norm_pos n : 3 <= n -> (0 < quad (1 / lam) n)%R.
Proof. intros. pose proof inv_lam. apply quad_pos; auto. lra. Qed.

Lemma k_entry_ok j l n : 3 <= n ->
  k_entry j l lam n (quad (1 / lam) n) = Ok (kv n j l).
Proof.
  intros Hn. unfold k_entry, kv. rewrite !pypow_ok by lra. cbn [bind].
  destruct (rltb_spec (IZR l) (powerRZ lam (j - 1))) as [H1|H1]; [reflexivity|].
  destruct (rltb_spec (powerRZ lam j) (IZR l)) as [H2|H2]; [reflexivity|].
  assert (Hp : (0 < powerRZ lam j)%R) by (apply pw_pos; lra).
  rewrite reqb_false by lra. pose proof (ratio_in j l (conj H1 H2)).
  rewrite part_scaling_ok by (auto; try lra; lia). cbn [bind]. unfold np_quot.
  rewrite reqb_false by (pose proof (norm_pos n Hn); lra). reflexivity.
Qed.

Lemma kv_one n j l : 3 <= n -> (IZR l <= powerRZ lam (j - 1))%R -> kv n j l = 1%R.
Proof.
  intros Hn H. unfold kv. destruct (rltb_spec (IZR l) (powerRZ lam (j - 1))) as [H1|H1]; auto.
  assert (E : IZR l = powerRZ lam (j - 1)) by lra. rewrite E.
  rewrite rltb_false by (apply pw_le; auto; lia).
  assert (Hp : (0 < powerRZ lam j)%R) by (apply pw_pos; lra).
  rewrite pw_pred by lra. replace (powerRZ lam j / lam / powerRZ lam j)%R with (1 / lam)%R
    by (field; lra). pose proof (norm_pos n Hn). field. lra.
Qed.
Lemma kv_zero n j l : (powerRZ lam j <= IZR l)%R -> kv n j l = 0%R.
Proof.
  intros H. unfold kv. assert (powerRZ lam (j - 1) < powerRZ lam j)%R by (apply pw_lt; auto; lia).
  rewrite rltb_false by lra. destruct (rltb_spec (powerRZ lam j) (IZR l)) as [H1|H1]; auto.
  assert (E : IZR l = powerRZ lam j) by lra. rewrite E.
  assert (Hp : (0 < powerRZ lam j)%R) by (apply pw_pos; lra).
  replace (powerRZ lam j / powerRZ lam j)%R with 1%R by (field; lra). rewrite quad_1.
  unfold Rdiv. ring.
Qed.
Lemma kv_pos n j l : 3 <= n -> (IZR l < powerRZ lam j)%R -> (0 < kv n j l)%R.
Proof.
  intros Hn H. unfold kv. destruct (rltb_spec (IZR l) (powerRZ lam (j - 1))) as [H1|H1]; [lra|].
  rewrite rltb_false by lra. pose proof (ratio_in j l ltac:(lra)) as [R1 R2].
  assert (Hp : (0 < powerRZ lam j)%R) by (apply pw_pos; lra).
  apply Rdiv_lt_0_compat; [|now apply norm_pos]. apply quad_pos; auto. split; auto.
  apply (Rmult_lt_reg_r (powerRZ lam j)); auto.
  replace (IZR l / powerRZ lam j * powerRZ lam j)%R with (IZR l) by (field; lra). lra.
Qed.
Lemma kv_nonneg n j l : 3 <= n -> (0 <= kv n j l)%R.
Proof.
  intros Hn. destruct (Rlt_le_dec (IZR l) (powerRZ lam j)) as [H|H].
  - left. now apply kv_pos.
  - rewrite kv_zero by assumption. lra.
Qed.
Lemma kv_l0 n j : kv n j 0 = 1%R.
Proof. unfold kv. rewrite rltb_true; [reflexivity|]. apply pw_pos. lra. Qed.

Lemma k_lam_ok L n J : 1 <= L -> 3 <= n -> j_max L lam = Ok J ->
  k_lam L lam n = Ok (mk2 (J + 2) L (kv n)).
Proof.
  intros HL Hn EJ. pose proof (j_max_nonneg L lam J HL Hlam EJ). unfold k_lam.
  rewrite EJ. cbn [bind]. rewrite (reqb_false lam) by lra.
  pose proof inv_lam. rewrite part_scaling_ok by (auto; try lra; lia). cbn [bind].
  rewrite zeros2_ok by lia. cbn [bind].
  rewrite (for_fill2 _ _ _ _ _ (fun _ _ => true) (kv n)) by
    (try lia; intros i g Hi;
     rewrite (for_fill2_row _ _ _ i _ _ 0 (kv n i)) by
       (try lia; intros l g' Hl; fold (quad (1 / lam) n); rewrite k_entry_ok by assumption; reflexivity);
     f_equal; apply mk2_ext; intros p q Hp Hq; rewrite Z.sub_0_r; zb).
  f_equal. apply mk2_ext. intros. zb.
Qed.
Lemma k_lam_jax_eq L n : k_lam_jax L lam n = k_lam L lam n.
Proof. reflexivity. Qed.

End Quad.
