(** * Proofs about filters.py: axisymmetric filters *)

From Coq Require Import ZArith Reals List Bool Lia Lra.
From Coquelicot Require Import Rcomplements Complex.
From Flocq Require Import Core.Raux.
From Verif Require Import Py PyFacts ModelSamples SamplesFacts ModelFilters FiltersFacts.
Import ListNotations.
Open Scope Z_scope.

Section Half.
Variable lam : R.
Hypothesis Hlam : (1 < lam)%R.

(** the integrand decreases on the upper half of the octave *)
Lemma gint_decr t u : ((1 + 1 / lam) / 2 <= t)%R -> (t <= u)%R -> (u < 1)%R ->
  (gint lam u <= gint lam t)%R.
Proof.
  intros H1 H2 H3. pose proof (inv_lam lam Hlam).
  assert (Hm : sarg lam ((1 + 1 / lam) / 2) = 0%R) by (unfold sarg; field; lra).
  assert (Ht : (0 <= sarg lam t)%R).
  { destruct (Req_dec t ((1 + 1 / lam) / 2)) as [->|]; [lra|].
    assert (sarg lam ((1 + 1 / lam) / 2) < sarg lam t)%R by (apply sarg_inc; auto; lra). lra. }
  assert (Htu : (sarg lam t <= sarg lam u)%R).
  { destruct (Req_dec t u) as [->|]; [lra|]. left. apply sarg_inc; auto; lra. }
  assert (Hu : (-1 < sarg lam u < 1)%R) by (apply sarg_in; auto; lra).
  unfold gint. set (p := sarg lam t) in *. set (q := sarg lam u) in *.
  assert (E : (exp (- 2 / (1 - q ^ 2)) <= exp (- 2 / (1 - p ^ 2)))%R).
  { assert (D1 : (0 < 1 - q ^ 2)%R) by (simpl; nra).
    assert (D2 : (1 - q ^ 2 <= 1 - p ^ 2)%R) by (simpl; nra).
    assert (/ (1 - p ^ 2) <= / (1 - q ^ 2))%R by (apply Rinv_le_contravar; lra).
    assert (- 2 / (1 - q ^ 2) <= - 2 / (1 - p ^ 2))%R by (unfold Rdiv; lra).
    destruct (Req_dec (- 2 / (1 - q ^ 2)) (- 2 / (1 - p ^ 2))) as [->|]; [lra|].
    left. apply exp_increasing. lra. }
  assert (I : (/ u <= / t)%R) by (apply Rinv_le_contravar; lra).
  assert (0 < / u)%R by (apply Rinv_0_lt_compat; lra).
  pose proof (exp_pos (- 2 / (1 - q ^ 2))). unfold Rdiv at 1 3.
  apply Rmult_le_compat; lra.
Qed.

(** quadrature between 1/lam and 1 seen from the upper end *)
Lemma quad_rev a n : (1 / lam <= a < 1)%R -> 3 <= n ->
  let h := ((1 - a) / IZR n)%R in
  quad lam a n =
  zrsum (n - 1) (fun k => if reqb a (1 / lam) && (k =? n - 2) then 0
    else (h * gint lam (1 - IZR (k + 2) * h) + h * gint lam (1 - IZR (k + 1) * h)) / 2)%R.
Proof.
  intros Ha Hn h. unfold quad, quadab. fold h.
  assert (Hn' : (0 < IZR n)%R) by (apply (IZR_lt 0); lia).
  assert (Hh : (IZR n * h = 1 - a)%R) by (unfold h; field; lra).
  assert (Hin : forall i, 0 <= i < n -> (a = (1 / lam)%R -> 1 <= i) ->
    not_end (a + IZR i * h) lam = true) by (intros; apply panel_in; auto; lia).
  clearbody h.
  replace n with (n - 1 + 1) at 1 by lia. rewrite zrsum_S by lia.
  replace (n - 1 + 1) with n by lia.
  assert (not_end (a + IZR n * h) lam = false) as ->.
  { destruct (not_end_spec lam (a + IZR n * h)) as [E|E]; auto. exfalso. lra. }
  rewrite andb_false_r, Rplus_0_r. rewrite zrsum_rev. apply zrsum_ext. intros k Hk.
  destruct (reqb_spec a (1 / lam)) as [Ea|Ea]; simpl andb.
  - destruct (Z.eqb_spec k (n - 2)) as [->|].
    + replace (n - 1 - 1 - (n - 2)) with 0 by lia.
      assert (not_end (a + 0 * h) lam = false) as ->; [|reflexivity].
      destruct (not_end_spec lam (a + 0 * h)) as [E|E]; auto. exfalso. lra.
    + rewrite !Hin by (intros; try lia; congruence). simpl andb. cbv iota.
      replace (a + IZR (n - 1 - 1 - k) * h)%R with (1 - IZR (k + 2) * h)%R
        by (rewrite !minus_IZR, plus_IZR; lra).
      replace (a + IZR (n - 1 - 1 - k + 1) * h)%R with (1 - IZR (k + 1) * h)%R
        by (rewrite !plus_IZR, !minus_IZR; lra). lra.
  - rewrite !Hin by (intros; try lia; congruence). simpl andb. cbv iota.
    replace (a + IZR (n - 1 - 1 - k) * h)%R with (1 - IZR (k + 2) * h)%R
      by (rewrite !minus_IZR, plus_IZR; lra).
    replace (a + IZR (n - 1 - 1 - k + 1) * h)%R with (1 - IZR (k + 1) * h)%R
      by (rewrite !plus_IZR, !minus_IZR; lra). lra.
Qed.

Lemma quad_half a m : ((1 + 1 / lam) / 2 <= a <= 1)%R -> 2 <= m ->
  (quad lam a (2 * m) <= quad lam (1 / lam) (2 * m))%R.
Proof.
  intros Ha Hm. pose proof (inv_lam lam Hlam) as Hi.
  destruct (Req_dec a 1) as [->|Ha1].
  { rewrite quad_1. left. apply norm_pos; auto. lia. }
  rewrite (quad_rev a) by (try lra; lia). rewrite (quad_rev (1 / lam)) by (try lra; lia).
  set (n := 2 * m). cbv zeta. rewrite (reqb_false a) by lra. rewrite (reqb_true (1 / lam)) by reflexivity.
  simpl andb. cbv iota.
  set (h := ((1 - a) / IZR n)%R). set (H := ((1 - 1 / lam) / IZR n)%R).
  set (u := fun p : Z => (h * gint lam (1 - IZR p * h))%R).
  set (v := fun p : Z => (H * gint lam (1 - IZR p * H))%R).
  assert (Hn' : (0 < IZR n)%R) by (apply (IZR_lt 0); lia).
  assert (Hnm : IZR n = (2 * IZR m)%R) by (unfold n; rewrite mult_IZR; reflexivity).
  assert (Hh : (0 < h)%R) by (apply Rdiv_lt_0_compat; lra).
  assert (HH : (2 * h <= H)%R).
  { unfold h, H, Rdiv. assert (0 < / IZR n)%R by now apply Rinv_0_lt_compat.
    rewrite <- Rmult_assoc. apply Rmult_le_compat_r; lra. }
  assert (HmH : (IZR m * H = (1 - 1 / lam) / 2)%R).
  { unfold H. rewrite Hnm. field. split; [lra|]. apply not_0_IZR. lia. }
  assert (Huv : forall p q, 1 <= p -> p <= 2 * q -> q <= m -> (u p <= v q / 2)%R).
  { intros p q Hp Hpq Hq. unfold u, v.
    assert (IZR p <= 2 * IZR q)%R by (rewrite <- mult_IZR; now apply IZR_le).
    assert (1 <= IZR p)%R by now apply IZR_ge1.
    assert (IZR q <= IZR m)%R by now apply IZR_le.
    assert (IZR q * H <= IZR m * H)%R by (apply Rmult_le_compat_r; lra).
    assert (0 < IZR p * h)%R by (apply Rmult_lt_0_compat; lra).
    assert (IZR p * h <= IZR q * H)%R.
    { apply Rle_trans with (IZR q * (2 * h))%R.
      - replace (IZR q * (2 * h))%R with (2 * IZR q * h)%R by ring. apply Rmult_le_compat_r; lra.
      - apply Rmult_le_compat_l; lra. }
    assert (gint lam (1 - IZR p * h) <= gint lam (1 - IZR q * H))%R by (apply gint_decr; lra).
    pose proof (gint_pos lam (1 - IZR p * h) ltac:(lra)).
    replace (H * gint lam (1 - IZR q * H) / 2)%R with (H / 2 * gint lam (1 - IZR q * H))%R by field.
    apply Rmult_le_compat; lra. }
  assert (Hv : forall q, 1 <= q < n -> (0 <= v q)%R).
  { intros q Hq. unfold v. apply Rmult_le_pos; [lra|]. left. apply gint_pos.
    assert (IZR q <= IZR n)%R by (apply IZR_le; lia).
    assert (IZR q * H <= IZR n * H)%R by (apply Rmult_le_compat_r; lra).
    rewrite Hnm in *. lra. }
  assert (Hvm : (v 1%Z <= v m)%R).
  { unfold v. apply Rmult_le_compat_l; [lra|].
    assert (1 * H <= IZR m * H)%R by (apply Rmult_le_compat_r; [lra|]; apply IZR_ge1; lia).
    apply gint_decr; lra. }
  (* left-hand side *)
  assert (HL : forall i, 0 <= i -> i + 1 <= m ->
    (zrsum (2 * (i + 1) - 1) (fun k => (u (k + 2)%Z + u (k + 1)%Z) / 2)
     <= zrsum i (fun k => (v (k + 2)%Z + v (k + 1)%Z) / 2) + v 1%Z / 4 + v (i + 1)%Z / 4)%R).
  { intros i Hi0. pattern i. apply natlike_ind; auto.
    - intros _. rewrite zrsum_0. replace (2 * (0 + 1) - 1) with 1 by lia. rewrite zrsum_1. simpl Z.add.
      pose proof (Huv 2 1 ltac:(lia) ltac:(lia) ltac:(lia)).
      pose proof (Huv 1 1 ltac:(lia) ltac:(lia) ltac:(lia)). lra.
    - intros x Hx IH Hxm. unfold Z.succ in *. specialize (IH ltac:(lia)).
      replace (2 * (x + 1 + 1) - 1) with (2 * (x + 1) - 1 + 1 + 1) by lia.
      rewrite !zrsum_S by lia.
      replace (2 * (x + 1) - 1 + 2) with (2 * (x + 1) + 1) by lia.
      replace (2 * (x + 1) - 1 + 1) with (2 * (x + 1)) by lia.
      replace (2 * (x + 1) + 2) with (2 * (x + 2)) by lia.
      replace (x + 1 + 1) with (x + 2) in * by lia.
      pose proof (Huv (2 * (x + 1)) (x + 1) ltac:(lia) ltac:(lia) ltac:(lia)).
      pose proof (Huv (2 * (x + 1) + 1) (x + 2) ltac:(lia) ltac:(lia) ltac:(lia)).
      pose proof (Huv (2 * (x + 2)) (x + 2) ltac:(lia) ltac:(lia) ltac:(lia)).
      lra. }
  specialize (HL (m - 1) ltac:(lia) ltac:(lia)). replace (m - 1 + 1) with m in HL by lia.
  replace (2 * m - 1) with (n - 1) in HL by lia.
  eapply Rle_trans; [exact HL|].
  (* right-hand side *)
  replace (n - 1) with (m - 1 + (1 + (n - m - 1))) by lia. rewrite !zrsum_split by lia.
  rewrite zrsum_1. destruct (Z.eqb_spec (m - 1 + 0) (n - 2)); [lia|].
  assert (Hpan : forall k, 0 <= k < n - 1 ->
     (0 <= if k =? n - 2 then 0 else (v (k + 2)%Z + v (k + 1)%Z) / 2)%R).
  { intros k Hk. destruct (Z.eqb_spec k (n - 2)); [lra|].
    pose proof (Hv (k + 2) ltac:(lia)). pose proof (Hv (k + 1) ltac:(lia)). lra. }
  assert (E : zrsum (m - 1) (fun k => (v (k + 2)%Z + v (k + 1)%Z) / 2)%R
       = zrsum (m - 1) (fun k => if k =? n - 2 then 0%R else ((v (k + 2)%Z + v (k + 1)%Z) / 2)%R)).
  { apply zrsum_ext. intros. destruct (Z.eqb_spec k (n - 2)); [lia|reflexivity]. }
  rewrite E.
  assert (0 <= zrsum (n - m - 1) (fun k => (if m - 1 + (1 + k) =? n - 2 then 0
     else (v (m - 1 + (1 + k) + 2)%Z + v (m - 1 + (1 + k) + 1)%Z) / 2)))%R as Hrest
    by (apply zrsum_nonneg; intros; apply (Hpan (m - 1 + (1 + k))); lia).
  unfold v, u in *. cbv beta in *.
  replace (m - 1 + 0 + 2) with (m + 1) by lia. replace (m - 1 + 0 + 1) with m by lia.
  pose proof (Hv (m + 1) ltac:(lia)). lra.
Qed.
End Half.

(** ** Differences of the generating function *)

Lemma Rmax_sq0 x : (0 <= x)%R -> Rmax 0 x = x. Proof. intros. now apply Rmax_right. Qed.

Section Diff.
Variables (lam : R) (n : Z).
Hypothesis Hlam : (1 < lam)%R.
Hypothesis Hn : 3 <= n.

Definition kdiff (j l : Z) : R := (kv lam n (j + 1) l - kv lam n j l)%R.

Lemma kdiff_low j l : (IZR l <= powerRZ lam (j - 1))%R -> kdiff j l = 0%R.
Proof.
  intros H. unfold kdiff. rewrite !kv_one; auto; [ring|].
  replace (j + 1 - 1) with j by lia.
  assert (powerRZ lam (j - 1) <= powerRZ lam j)%R by (apply pw_le; auto; lia). lra.
Qed.
Lemma kdiff_mid j l : (IZR l <= powerRZ lam j)%R -> kdiff j l = (1 - kv lam n j l)%R.
Proof.
  intros H. unfold kdiff. rewrite (kv_one lam Hlam n (j + 1)); auto.
  replace (j + 1 - 1) with j by lia. exact H.
Qed.
Lemma kdiff_high j l : (powerRZ lam j <= IZR l)%R -> kdiff j l = kv lam n (j + 1) l.
Proof. intros H. unfold kdiff. rewrite (kv_zero lam Hlam n j) by assumption. ring. Qed.
Lemma kdiff_far j l : (powerRZ lam (j + 1) <= IZR l)%R -> kdiff j l = 0%R.
Proof.
  intros H. assert (powerRZ lam j <= powerRZ lam (j + 1))%R by (apply pw_le; auto; lia).
  rewrite kdiff_high by lra. now apply kv_zero.
Qed.
Lemma kdiff_l0 j : kdiff j 0 = 0%R.
Proof. unfold kdiff. rewrite !kv_l0 by assumption. ring. Qed.
(** a difference can only be negative where the generating function exceeds 1 *)
Lemma kdiff_neg j l : (kdiff j l < 0)%R ->
  (powerRZ lam (j - 1) < IZR l < powerRZ lam j)%R /\ (1 < kv lam n j l)%R.
Proof.
  intros H. destruct (Rlt_le_dec (powerRZ lam (j - 1)) (IZR l)) as [H1|H1].
  2: rewrite kdiff_low in H by assumption; lra.
  destruct (Rlt_le_dec (IZR l) (powerRZ lam j)) as [H2|H2].
  - rewrite kdiff_mid in H by lra. repeat split; auto; lra.
  - rewrite kdiff_high in H by assumption. pose proof (kv_nonneg lam Hlam n (j + 1) l Hn). lra.
Qed.

(** the value written by the loop: the last non-negative square root *)
Fixpoint ltemp (j : Z) (k : nat) : R :=
  match k with
  | O => sqrt (kdiff j 0)
  | S k' => if rltb (kdiff j (Z.of_nat k)) 0 then ltemp j k' else sqrt (kdiff j (Z.of_nat k))
  end.
Definition tv (j l : Z) : R := ltemp j (Z.to_nat l).

Lemma tv_step j l : 0 <= l ->
  tv j l = if rltb (kdiff j l) 0 then tv j (l - 1) else sqrt (kdiff j l).
Proof.
  intros Hl. unfold tv. destruct (Z.eq_dec l 0) as [->|].
  - simpl. rewrite kdiff_l0. rewrite rltb_false by lra. reflexivity.
  - replace (Z.to_nat l) with (S (Z.to_nat (l - 1))) by lia. cbn [ltemp].
    replace (Z.of_nat (S (Z.to_nat (l - 1)))) with l by lia. reflexivity.
Qed.
Lemma tv_ok j l : 0 <= l -> (0 <= kdiff j l)%R -> tv j l = sqrt (kdiff j l).
Proof. intros Hl H. rewrite tv_step by assumption. now rewrite rltb_false. Qed.
Lemma tv_nonneg j l : 0 <= l -> (0 <= tv j l)%R.
Proof.
  intros Hl. unfold tv. induction (Z.to_nat l); cbn [ltemp]; [apply sqrt_pos|].
  destruct (rltb _ _); auto. apply sqrt_pos.
Qed.
(** support of the loop's output *)
Lemma tv_low j l : 0 <= l -> (IZR l <= powerRZ lam (j - 1))%R -> tv j l = 0%R.
Proof.
  intros Hl H. rewrite tv_ok by (auto; rewrite kdiff_low by assumption; lra).
  rewrite kdiff_low by assumption. apply sqrt_0.
Qed.
Lemma tv_far j l : 0 <= l -> (powerRZ lam (j + 1) <= IZR l)%R -> tv j l = 0%R.
Proof.
  intros Hl H. rewrite tv_ok by (auto; rewrite kdiff_far by assumption; lra).
  rewrite kdiff_far by assumption. apply sqrt_0.
Qed.
End Diff.

(** ** Closed forms of the axisymmetric filters *)

Section Axisym.
Variable lam : R.
Hypothesis Hlam : (1 < lam)%R.

Definition Q := default_quad_iters.
Lemma HQ : 3 <= Q. Proof. unfold Q, default_quad_iters. lia. Qed.

Definition phi_ax (L J_min : Z) : arr1 R := mk1 L (fun l => sqrt (kv lam Q J_min l)).
Definition psi_loop (L J_min J : Z) : arr2 R :=
  mk2 (J + 1) L (fun j l => if J_min <=? j then tv lam Q j l else 0%R).
Definition psi_vec (L J : Z) : arr2 R :=
  mk2 (J + 1) L (fun j l => sqrt (Rmax 0 (kdiff lam Q j l))).

Lemma check_ok J_min J : 0 <= J_min < J -> check_J_min J_min J = Ok tt.
Proof. intros. unfold check_J_min, guard. zb. Qed.
Lemma check_err J_min J : J_min < 0 \/ J <= J_min -> check_J_min J_min J = Err ValueError.
Proof. intros. unfold check_J_min, guard. zb. Qed.

Lemma filters_axisym_ok L J_min J : 1 <= L -> j_max L lam = Ok J -> 0 <= J_min < J ->
  filters_axisym L J_min lam = Ok (psi_loop L J_min J, phi_ax L J_min).
Proof.
  intros HL EJ HJ. unfold filters_axisym. rewrite EJ. cbn [bind].
  rewrite check_ok by lia. cbn [bind].
  pose proof HQ as HQ'. rewrite (k_lam_ok lam Hlam L default_quad_iters J) by auto. cbn [bind]. fold Q.
  rewrite zeros2_ok, zeros1_ok by lia. cbn [bind].
  rewrite (for_fill1 _ _ _ _ (fun l => sqrt (kv lam Q J_min l))) by
    (try lia; intros l g Hl; rewrite rd2_mk by lia; cbn [bind];
     rewrite np_sqrt_ok by (apply kv_nonneg; auto); reflexivity).
  cbn [bind].
  rewrite (for_closed (fun j =>
    (mk2 (J + 1) L (fun p q => if (J_min <=? p) && (p <? j) then tv lam Q p q else 0%R),
     if j =? J_min then 0%R else tv lam Q (j - 1) (L - 1),
     if j =? J_min then None else Some (tv lam Q (j - 1) (L - 1))))); [|lia| |].
  - cbn [bind]. unfold psi_loop, phi_ax. do 2 f_equal.
    + apply mk2_ext. intros; zb.
    + apply mk1_ext. intros; zb.
  - rewrite Z.eqb_refl. do 2 f_equal. apply mk2_ext. intros; zb.
  - intros j Hj.
    rewrite (for_closed (fun l =>
      (mk2 (J + 1) L (fun p q => if (J_min <=? p) && (p <? j) || (p =? j) && (q <? l)
                                 then tv lam Q p q else 0%R),
       if l =? 0 then (if j =? J_min then 0%R else tv lam Q (j - 1) (L - 1)) else tv lam Q j (l - 1),
       if l =? 0 then (if j =? J_min then None else Some (tv lam Q (j - 1) (L - 1)))
       else Some (tv lam Q j (l - 1))))); [|lia| |].
    + destruct (Z.eqb_spec L 0); [lia|]. destruct (Z.eqb_spec (j + 1) J_min); [lia|].
      replace (j + 1 - 1) with j by lia. do 3 f_equal. apply mk2_ext. intros; zb.
    + simpl Z.eqb. do 2 f_equal. apply mk2_ext. intros; zb.
    + intros l Hl. cbv beta iota. rewrite !rd2_mk by lia. cbn [bind]. fold (kdiff lam Q j l).
      destruct (Z.eqb_spec (l + 1) 0); [lia|]. replace (l + 1 - 1) with l by lia.
      pose proof (tv_step lam Q Hlam j l ltac:(lia)) as Hs.
      destruct (rltb_spec (kdiff lam Q j l) 0) as [Hd|Hd].
      * destruct (Z.eqb_spec l 0) as [->|Hl0]; [rewrite kdiff_l0 in Hd by auto; lra|].
        rewrite wr2_mk by lia. cbn [bind]. rewrite <- Hs.
        do 3 f_equal. apply mk2_ext. intros p q Hp Hq.
        destruct (Z.eqb_spec p j) as [->|]; simpl; [|zb].
        destruct (Z.eqb_spec q l) as [->|]; zb.
      * rewrite np_sqrt_ok by assumption. cbn [bind]. rewrite wr2_mk by lia. cbn [bind].
        rewrite <- Hs. do 3 f_equal. apply mk2_ext. intros p q Hp Hq.
        destruct (Z.eqb_spec p j) as [->|]; simpl; [|zb].
        destruct (Z.eqb_spec q l) as [->|]; zb.
Qed.

Lemma kcheck L J_min J : 1 <= L -> j_max L lam = Ok J -> (J_min < 0 \/ J <= J_min) ->
  filters_axisym L J_min lam = Err ValueError /\
  filters_axisym_vectorised L J_min lam = Err ValueError /\
  filters_axisym_jax L J_min lam = Err ValueError.
Proof.
  intros HL EJ H. unfold filters_axisym, filters_axisym_vectorised, filters_axisym_jax.
  rewrite EJ. cbn [bind]. rewrite check_err by assumption. auto.
Qed.

Lemma forallb_zrange f lo hi : (forall i, lo <= i < hi -> f i = true) ->
  forallb f (zrange lo hi) = true.
Proof. intros. apply forallb_forall. intros x Hx. apply H. now apply In_zrange. Qed.

Lemma np_sqrt2_ok a : (forall i j, 0 <= i < rows a -> 0 <= j < cols a -> (0 <= get2 a i j)%R) ->
  np_sqrt2 a = Ok (map2 sqrt a).
Proof.
  intros H. unfold np_sqrt2. rewrite forallb_zrange; [reflexivity|].
  intros i Hi. apply forallb_zrange. intros j Hj. rewrite Rlt_bool_false; [reflexivity|].
  now apply H.
Qed.
Lemma np_sqrt1_ok a : (forall i, 0 <= i < len1 a -> (0 <= get1 a i)%R) ->
  np_sqrt1 a = Ok (map1 sqrt a).
Proof.
  intros H. unfold np_sqrt1. rewrite forallb_zrange; [reflexivity|].
  intros i Hi. rewrite Rlt_bool_false; [reflexivity|]. now apply H.
Qed.

Lemma kdiff_array J L : 0 <= J ->
  droplast (sub2 (roll_up (mk2 (J + 2) L (kv lam Q))) (mk2 (J + 2) L (kv lam Q)))
  = mk2 (J + 1) (Z.max 0 L) (kdiff lam Q).
Proof.
  intros HJ. unfold droplast, slice2, sub2, roll_up. cbn [rows cols mk2].
  unfold sl_len, sl_at, sl_start, sl_stop, sl_bound, range_len. cbn [s_lo s_hi s_st full].
  change (-1 <? 0) with true. cbv iota. replace (Z.max 0 (-1 + (J + 2))) with (J + 1) by lia.
  destruct (Z.ltb_spec 0 (J + 1)); [|lia].
  replace ((J + 1 - 0 + 1 - 1) / 1) with (J + 1) by (rewrite Z.div_1_r; lia).
  replace (if 0 <? L then (L - 0 + 1 - 1) / 1 else 0) with (Z.max 0 L)
    by (rewrite Z.div_1_r; zb).
  apply mk2_ext. intros i j Hi Hj. rewrite !Z.mul_1_r, !Z.add_0_l.
  rewrite !get2_mk by lia. rewrite get2_mk; [|apply Z.mod_pos_bound; lia|lia].
  rewrite Z.mod_small by lia. rewrite !get2_mk by lia. reflexivity.
Qed.

Lemma filters_axisym_vec_ok L J_min J : 1 <= L -> j_max L lam = Ok J -> 0 <= J_min < J ->
  filters_axisym_vectorised L J_min lam = Ok (psi_vec L J, phi_ax L J_min).
Proof.
  intros HL EJ HJ. unfold filters_axisym_vectorised. rewrite EJ. cbn [bind].
  rewrite check_ok by lia. cbn [bind].
  pose proof HQ as HQ'. rewrite (k_lam_ok lam Hlam L default_quad_iters J) by auto. cbn [bind]. fold Q.
  rewrite kdiff_array by lia. replace (Z.max 0 L) with L by lia.
  unfold map2. cbn [rows cols mk2].
  rewrite np_sqrt2_ok.
  2:{ intros i j Hi Hj. cbn [rows cols mk2] in Hi, Hj. rewrite !get2_mk by assumption.
      destruct (rltb_spec (kdiff lam Q i j) 0); lra. }
  cbn [bind]. unfold row2. cbn [rows cols mk2]. rewrite idx_ok by lia. cbn [bind].
  rewrite np_sqrt1_ok.
  2:{ intros i Hi. cbn [len1 mk1] in Hi. rewrite get1_mk, get2_mk by lia. now apply kv_nonneg. }
  cbn [bind]. unfold psi_vec, phi_ax, map1, map2. cbn [rows cols mk2 mk1 len1]. do 2 f_equal.
  - apply mk2_ext. intros i j Hi Hj. rewrite !get2_mk by assumption. f_equal.
    destruct (rltb_spec (kdiff lam Q i j) 0).
    + rewrite Rmax_left; lra.
    + rewrite Rmax_right; lra.
  - apply mk1_ext. intros i Hi. rewrite get1_mk, get2_mk by lia. reflexivity.
Qed.

Lemma filters_axisym_jax_ok L J_min J : 1 <= L -> j_max L lam = Ok J -> 0 <= J_min < J ->
  filters_axisym_jax L J_min lam = Ok (psi_vec L J, phi_ax L J_min).
Proof.
  intros HL EJ HJ. unfold filters_axisym_jax. rewrite EJ. cbn [bind].
  rewrite check_ok by lia. cbn [bind]. rewrite k_lam_jax_eq.
  pose proof HQ as HQ'. rewrite (k_lam_ok lam Hlam L default_quad_iters J) by auto. cbn [bind]. fold Q.
  rewrite kdiff_array by lia. replace (Z.max 0 L) with L by lia.
  rewrite zeros2_ok by lia. cbn [bind rows cols mk2]. rewrite !Z.eqb_refl. cbn [bind guard andb].
  rewrite np_sqrt2_ok.
  2:{ intros i j Hi Hj. cbn [rows cols mk2] in Hi, Hj. rewrite !get2_mk by assumption.
      destruct (rltb_spec (kdiff lam Q i j) 0); [apply Rle_refl | lra]. }
  cbn [bind]. unfold row2. cbn [rows cols mk2]. rewrite idx_ok by lia. cbn [bind].
  rewrite np_sqrt1_ok.
  2:{ intros i Hi. cbn [len1 mk1] in Hi. rewrite get1_mk, get2_mk by lia. now apply kv_nonneg. }
  cbn [bind]. unfold psi_vec, phi_ax, map1, map2. cbn [rows cols mk2 mk1 len1]. do 2 f_equal.
  - apply mk2_ext. intros i j Hi Hj. rewrite !get2_mk by assumption. f_equal.
    destruct (rltb_spec (kdiff lam Q i j) 0).
    + rewrite Rmax_left; [reflexivity|lra].
    + rewrite Rmax_right; lra.
  - apply mk1_ext. intros i Hi. rewrite get1_mk, get2_mk by lia. reflexivity.
Qed.
End Axisym.
