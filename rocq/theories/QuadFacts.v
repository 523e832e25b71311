(** Trapezium rule against the integral *)

From Coq Require Import ZArith Reals List Bool Lia Lra Psatz.
From Coquelicot Require Import Coquelicot.
From Flocq Require Import Core.Raux.
From Verif Require Import Py PyFacts Spec SpecQuad.
Open Scope R_scope.

(** ** the rule on one panel *)

Lemma trap_one_side (f f1 : R -> R) M a h : 0 <= M -> 0 < h -> (forall x, continuous f x) ->
  (forall x, a <= x <= a + h -> is_derive f x (f1 x)) ->
  (forall x y, a <= x -> x <= y -> y <= a + h -> f1 y - f1 x <= M * (y - x)) ->
  h * ((f a + f (a + h)) / 2) - RInt f a (a + h) <= M * h ^ 3 / 6.
Proof.
  intros HM0 Hh Hc Hd HL.
  set (G := fun t => M * t ^ 3 / 6 - (t * ((f a + f (a + t)) / 2) - RInt f a (a + t))).
  set (G1 := fun t => M * t ^ 2 / 2 - ((f a + f (a + t)) / 2 + t * (f1 (a + t) / 2) - f (a + t))).
  assert (HI : forall t, is_derive (fun t => RInt f a (a + t)) t (f (a + t))).
  { intros t.
    assert (D : is_derive (fun x => RInt f a x) (a + t) (f (a + t))).
    { apply is_derive_RInt with a; [|apply Hc]. exists (mkposreal 1 ltac:(lra)). intros y _.
      apply RInt_correct, ex_RInt_continuous. intros z _. apply Hc. }
    replace (f (a + t)) with (scal 1 (f (a + t))) by (unfold scal; cbn; unfold mult; cbn; ring).
    apply (is_derive_comp (fun x => RInt f a x) (fun t => a + t)); [exact D|].
    auto_derive; [exact I|ring]. }
  assert (HD : forall t, 0 <= t <= h -> is_derive G t (G1 t)).
  { intros t Ht. unfold G, G1.
    assert (D1 : is_derive (fun t => f (a + t)) t (f1 (a + t))).
    { replace (f1 (a + t)) with (scal 1 (f1 (a + t))) by (unfold scal; cbn; unfold mult; cbn; ring).
      apply (is_derive_comp f (fun t => a + t)); [apply Hd; lra|]. auto_derive; [exact I|ring]. }
    apply (is_derive_minus (fun t => M * t ^ 3 / 6) (fun t => t * ((f a + f (a + t)) / 2) - RInt f a (a + t))).
    - auto_derive; [exact I|]. simpl. field.
    - apply (is_derive_minus (fun t => t * ((f a + f (a + t)) / 2)) (fun t => RInt f a (a + t))); [|apply HI].
      replace ((f a + f (a + t)) / 2 + t * (f1 (a + t) / 2)) with (1 * ((f a + f (a + t)) / 2) + t * (f1 (a + t) / 2)) by ring.
      apply (is_derive_mult (fun t : R => t) (fun t => (f a + f (a + t)) / 2)); [apply (@is_derive_id R_AbsRing)| |intros; apply Rmult_comm].
      apply (is_derive_ext (fun t => scal (/ 2) (f a + f (a + t)))); [intros; unfold scal; cbn; unfold mult; cbn; field|].
      replace (f1 (a + t) / 2) with (scal (/ 2) (0 + f1 (a + t))) by (unfold scal; cbn; unfold mult; cbn; field).
      apply is_derive_scal, (is_derive_plus (fun _ => f a) (fun t => f (a + t))); [apply (@is_derive_const R_AbsRing R_NormedModule)|exact D1]. }
  destruct (MVT_gen G 0 h G1) as (c & Hc1 & Hc2).
  - intros x. rewrite Rmin_left, Rmax_right by lra. intros Hx. apply HD. lra.
  - intros x. rewrite Rmin_left, Rmax_right by lra. intros Hx.
    apply continuity_pt_filterlim, (ex_derive_continuous G). exists (G1 x). apply HD. lra.
  - rewrite Rmin_left, Rmax_right in Hc1 by lra.
    assert (G0 : G 0 = 0).
    { unfold G. rewrite Rplus_0_r, RInt_point. unfold zero; cbn. field. }
    assert (HG1 : 0 <= G1 c).
    { unfold G1. destruct (MVT_gen f a (a + c) f1) as (d & Hd1 & Hd2).
      - intros x. rewrite Rmin_left, Rmax_right by lra. intros Hx. apply Hd. lra.
      - intros x. rewrite Rmin_left, Rmax_right by lra. intros Hx.
        apply continuity_pt_filterlim, (ex_derive_continuous f). exists (f1 x). apply Hd. lra.
      - rewrite Rmin_left, Rmax_right in Hd1 by lra.
        pose proof (HL d (a + c) ltac:(lra) ltac:(lra) ltac:(lra)) as HM.
        assert (E : f (a + c) = f a + f1 d * c) by (replace (f1 d * c) with (f1 d * (a + c - a)) by ring; lra).
        assert (f1 (a + c) - f1 d <= M * c) by (apply Rle_trans with (1 := HM); apply Rmult_le_compat_l; lra).
        rewrite E. nra. }
    rewrite G0 in Hc2. rewrite !Rminus_0_r in Hc2. unfold G in Hc2. rewrite Rminus_0_r in Hc2 || idtac. nra.
Qed.

Lemma trap_panel (f f1 : R -> R) M a h : 0 <= M -> 0 < h -> (forall x, continuous f x) ->
  (forall x, a <= x <= a + h -> is_derive f x (f1 x)) ->
  (forall x y, a <= x -> x <= y -> y <= a + h -> Rabs (f1 y - f1 x) <= M * (y - x)) ->
  Rabs (h * ((f a + f (a + h)) / 2) - RInt f a (a + h)) <= M * h ^ 3 / 6.
Proof.
  intros HM Hh Hc Hd HL. apply Rabs_le. split.
  - assert (Hc' : forall x, continuous (fun x => - f x) x) by (intros x; apply (continuous_opp f), Hc).
    pose proof (trap_one_side (fun x => - f x) (fun x => - f1 x) M a h HM Hh Hc') as H.
    assert (EI : RInt (fun x => - f x) a (a + h) = - RInt f a (a + h)).
    { apply (RInt_opp f). apply ex_RInt_continuous. intros z _. apply Hc. }
    rewrite EI in H. specialize (H ltac:(intros x Hx; apply (is_derive_opp f), Hd, Hx)).
    specialize (H ltac:(intros x y H1 H2 H3; pose proof (HL x y H1 H2 H3) as HA; apply Rabs_le_inv in HA; lra)). lra.
  - apply (trap_one_side f f1); auto. intros x y H1 H2 H3. pose proof (HL x y H1 H2 H3) as HA; apply Rabs_le_inv in HA; lra.
Qed.

(** ** the bump *)

Lemma exp_lin x : 1 + x <= exp x.
Proof. destruct (Req_dec x 0) as [->|H]; [rewrite exp_0; lra|]. left. now apply exp_ineq1. Qed.
Lemma exp_tangent x : exp 1 * x <= exp x.
Proof.
  replace (exp x) with (exp 1 * exp (x - 1)) by (rewrite <- exp_plus; f_equal; ring).
  apply Rmult_le_compat_l; [left; apply exp_pos|]. pose proof (exp_lin (x - 1)). lra.
Qed.
Lemma exp_1_lb : (12 / 5) <= exp 1.
Proof.
  replace 1 with (/ 4 + / 4 + (/ 4 + / 4)) by field. rewrite !exp_plus. pose proof (exp_lin (/ 4)).
  assert ((1 + / 4) * (1 + / 4) <= exp (/ 4) * exp (/ 4)) by (apply Rmult_le_compat; lra).
  assert ((1 + / 4) * (1 + / 4) * ((1 + / 4) * (1 + / 4)) <= exp (/ 4) * exp (/ 4) * (exp (/ 4) * exp (/ 4))) by (apply Rmult_le_compat; lra).
  lra.
Qed.
Lemma exp_cube x : 0 < x -> exp (- x) <= 2 / x ^ 3.
Proof.
  intros Hx. rewrite exp_Ropp. assert (H : x ^ 3 / 2 <= exp x).
  { replace x with (x / 3 + x / 3 + x / 3) at 2 by field. rewrite !exp_plus.
    pose proof (exp_tangent (x / 3)) as Ht. pose proof exp_1_lb.
    assert (H1 : (12 / 5) * (x / 3) <= exp (x / 3)) by (apply Rle_trans with (2 := Ht); apply Rmult_le_compat_r; lra).
    assert (H2 : (12 / 5) * (x / 3) * ((12 / 5) * (x / 3)) <= exp (x / 3) * exp (x / 3)) by (apply Rmult_le_compat; lra).
    assert (H3 : (12 / 5) * (x / 3) * ((12 / 5) * (x / 3)) * ((12 / 5) * (x / 3)) <= exp (x / 3) * exp (x / 3) * exp (x / 3))
      by (apply Rmult_le_compat; try lra; apply Rmult_le_pos; lra).
    assert (0 < x ^ 3) by (apply pow_lt; lra).
    replace ((12 / 5) * (x / 3) * ((12 / 5) * (x / 3)) * ((12 / 5) * (x / 3))) with ((64 / 125) * x ^ 3) in H3 by field. lra. }
  assert (H3 : 0 < x ^ 3) by (apply pow_lt; lra).
  replace (2 / x ^ 3) with (/ (x ^ 3 / 2)) by (field; lra). apply Rinv_le_contravar; lra.
Qed.

(** g and its derivatives in terms of u = 1/(1-s^2) *)
Definition bump1 (s : R) : R := - (4 * s * (/ (1 - s * s)) ^ 2) * exp (- (2 / (1 - s * s))).
Definition bump2 (s : R) : R :=
  (16 * (/ (1 - s * s)) ^ 4 - 32 * (/ (1 - s * s)) ^ 3 + 12 * (/ (1 - s * s)) ^ 2) * exp (- (2 / (1 - s * s))).

Lemma bump_in s : s * s < 1 -> bump s = exp (- (2 / (1 - s * s))).
Proof. intros H. unfold bump. destruct (Rlt_dec (s * s) 1); [reflexivity|contradiction]. Qed.
Lemma bump_out s : 1 <= s * s -> bump s = 0.
Proof. intros H. unfold bump. destruct (Rlt_dec (s * s) 1); [lra|reflexivity]. Qed.
Lemma bump_pos s : 0 <= bump s.
Proof. unfold bump. destruct (Rlt_dec (s * s) 1); [left; apply exp_pos|lra]. Qed.

Lemma loc_in s : s * s < 1 -> locally s (fun x => x * x < 1).
Proof.
  intros H. assert (C : continuous (fun x => x * x) s) by (apply (continuous_mult (fun x : R => x) (fun x => x)); apply continuous_id).
  apply (C (fun y => y < 1)). apply open_lt. exact H.
Qed.

Lemma bump_derive s : s * s < 1 -> is_derive bump s (bump1 s).
Proof.
  intros H. apply (is_derive_ext_loc (fun s => exp (- (2 / (1 - s * s))))).
  { generalize (loc_in s H). apply filter_imp. intros x Hx. now rewrite bump_in. }
  unfold bump1. auto_derive; [lra|]. change (1 + - (s * s)) with (1 - s * s). fold (2 / (1 - s * s)).
  generalize (exp (- (2 / (1 - s * s)))). intros E. field. lra.
Qed.
Lemma bump1_derive s : s * s < 1 -> is_derive bump1 s (bump2 s).
Proof.
  intros H. unfold bump1, bump2. auto_derive; [repeat split; lra|]. change (1 + - (s * s)) with (1 - s * s). fold (2 / (1 - s * s)).
  generalize (exp (- (2 / (1 - s * s)))). intros E. field. lra.
Qed.

Lemma u_ge1 s : s * s < 1 -> 1 <= / (1 - s * s).
Proof. intros H. rewrite <- Rinv_1 at 1. apply Rinv_le_contravar; nra. Qed.
Lemma bump_le s : bump s <= exp (-2).
Proof.
  destruct (Rlt_dec (s * s) 1) as [H|H]; [|rewrite bump_out by lra; left; apply exp_pos].
  rewrite bump_in by assumption. pose proof (u_ge1 s H).
  destruct (Req_dec (/ (1 - s * s)) 1) as [E|E].
  - unfold Rdiv. rewrite E. right. f_equal. ring.
  - left. apply exp_increasing. unfold Rdiv. lra.
Qed.
Lemma bump1_le s : s * s < 1 -> Rabs (bump1 s) <= 4 * exp (-2).
Proof.
  intros H. pose proof (u_ge1 s H) as Hu. unfold bump1. set (u := / (1 - s * s)) in *.
  replace (2 / (1 - s * s)) with (2 * u) by reflexivity.
  rewrite Rabs_mult, Rabs_Ropp, (Rabs_pos_eq (exp _)) by (left; apply exp_pos).
  rewrite Rabs_mult, (Rabs_pos_eq (u ^ 2)) by (apply pow2_ge_0).
  assert (Hs : Rabs (4 * s) <= 4) by (apply Rabs_le; split; nra).
  assert (He : u ^ 2 * exp (- (2 * u)) <= exp (-2)).
  { pose proof (exp_lin (u - 1)) as H1. replace (1 + (u - 1)) with u in H1 by ring.
    assert (H2 : u * u <= exp (u - 1) * exp (u - 1)) by (apply Rmult_le_compat; lra).
    rewrite <- exp_plus in H2. replace (exp (-2)) with (exp (u - 1 + (u - 1)) * exp (- (2 * u))) by (rewrite <- exp_plus; f_equal; ring).
    replace (u ^ 2) with (u * u) by ring. apply Rmult_le_compat_r; [left; apply exp_pos|exact H2]. }
  assert (0 <= u ^ 2 * exp (- (2 * u))) by (apply Rmult_le_pos; [apply pow2_ge_0|left; apply exp_pos]).
  rewrite Rmult_assoc. apply Rmult_le_compat; auto. apply Rabs_pos.
Qed.

Lemma exp_taylor3 x : 0 <= x -> 1 + x + x ^ 2 / 2 + x ^ 3 / 6 <= exp x.
Proof.
  intros Hx. pose proof (exp_ge_taylor x 3 Hx) as H. cbn [sum_f_R0 fact pow] in H. simpl in H. lra.
Qed.

Lemma bump2_le s : s * s < 1 -> Rabs (bump2 s) <= 16 * exp (-2).
Proof.
  intros H. pose proof (u_ge1 s H) as Hu. unfold bump2. set (u := / (1 - s * s)) in *.
  replace (2 / (1 - s * s)) with (2 * u) by reflexivity.
  set (v := u - 1) in *. assert (Hv : 0 <= v) by (unfold v; lra).
  assert (Eu : u = v + 1) by (unfold v; ring).
  assert (Ee : exp (- (2 * u)) = exp (-2) * (exp (- v) * exp (- v))) by (rewrite <- !exp_plus; f_equal; rewrite Eu; ring).
  assert (Hb : v * (v + 1) * exp (- v) <= 1).
  { pose proof (exp_taylor3 v Hv) as HT. rewrite exp_Ropp. apply Rmult_le_reg_r with (exp v); [apply exp_pos|].
    rewrite Rmult_assoc, Rinv_l by (apply Rgt_not_eq, exp_pos). assert (0 <= 1 - v ^ 2 / 2 + v ^ 3 / 6); [|nra].
    destruct (Rle_dec v 1); [nra|]. assert (0 <= (v - 2) ^ 2 * (v + 1)) by (apply Rmult_le_pos; [apply pow2_ge_0|lra]). nra. }
  assert (Hb0 : 0 <= v * (v + 1) * exp (- v)) by (apply Rmult_le_pos; [nra|left; apply exp_pos]).
  assert (Hb1 : (v + 1) * exp (- v) <= 1).
  { pose proof (exp_lin v). rewrite exp_Ropp. apply Rmult_le_reg_r with (exp v); [apply exp_pos|].
    rewrite Rmult_assoc, Rinv_l by (apply Rgt_not_eq, exp_pos). lra. }
  assert (Hb2 : 0 <= (v + 1) * exp (- v)) by (apply Rmult_le_pos; [lra|left; apply exp_pos]).
  set (p := v * (v + 1) * exp (- v)) in *. set (q := (v + 1) * exp (- v)) in *.
  replace ((16 * u ^ 4 - 32 * u ^ 3 + 12 * u ^ 2) * exp (- (2 * u))) with (exp (-2) * (16 * (p * p) - 4 * (q * q)))
    by (rewrite Ee; unfold p, q; rewrite Eu; ring).
  pose proof (exp_pos (-2)). assert (0 <= p * p <= 1) by nra. assert (0 <= q * q <= 1) by nra.
  rewrite Rabs_mult, (Rabs_pos_eq (exp (-2))) by lra. assert (Rabs (16 * (p * p) - 4 * (q * q)) <= 16) by (apply Rabs_le; lra).
  replace (16 * exp (-2)) with (exp (-2) * 16) by ring. apply Rmult_le_compat_l; lra.
Qed.

Lemma bump_sq_le s : bump s <= Rabs (1 - s * s).
Proof.
  destruct (Rlt_dec (s * s) 1) as [H|H]; [|rewrite bump_out by lra; apply Rabs_pos].
  rewrite bump_in by assumption. rewrite Rabs_pos_eq by lra. rewrite exp_Ropp.
  pose proof (exp_lin (2 / (1 - s * s))) as HL.
  assert (Hu : 0 < / (1 - s * s)) by (apply Rinv_0_lt_compat; lra).
  replace (1 - s * s) with (/ / (1 - s * s)) at 2 by (apply Rinv_inv). apply Rinv_le_contravar; [exact Hu|].
  unfold Rdiv in *. lra.
Qed.

Lemma bump_continuous s : continuous bump s.
Proof.
  destruct (Rlt_dec (s * s) 1) as [H|H].
  { apply (ex_derive_continuous bump). exists (bump1 s). now apply bump_derive. }
  apply continuity_pt_filterlim.
  assert (E0 : bump s = 0) by (apply bump_out; lra).
  destruct (Rlt_dec 1 (s * s)) as [H1|H1].
  - apply continuity_pt_filterlim. apply (continuous_ext_loc _ (fun _ => 0)); [|apply continuous_const].
    assert (C : continuous (fun x => x * x) s) by (apply (continuous_mult (fun x : R => x) (fun x => x)); apply continuous_id).
    assert (L : locally s (fun x => 1 < x * x)) by (apply (C (fun y => 1 < y)); apply open_gt; exact H1).
    revert L. apply filter_imp. intros x Hx. symmetry. apply bump_out. lra.
  - assert (E1 : s * s = 1) by lra. intros eps Heps.
    assert (C : continuity_pt (fun x => Rabs (1 - x * x)) s).
    { apply (continuity_pt_comp (fun x => 1 - x * x) Rabs); [|apply Rcontinuity_abs].
      apply continuity_pt_filterlim, (ex_derive_continuous (fun x => 1 - x * x)). auto_derive. exact I. }
    destruct (C eps Heps) as (alp & Ha & HC). exists alp. split; [exact Ha|]. intros x Hx. specialize (HC x Hx).
    simpl in *. unfold R_dist in *. rewrite E0. rewrite E1 in HC. replace (1 - 1) with 0 in HC by ring. rewrite Rabs_R0 in HC.
    rewrite Rminus_0_r in *. rewrite Rabs_Rabsolu in HC. rewrite (Rabs_pos_eq (bump x)) by apply bump_pos.
    apply Rle_lt_trans with (2 := HC). apply bump_sq_le.
Qed.

(** ** the integrand *)

Definition sg (lam t : R) : R := 2 * lam / (lam - 1) * (t - 1 / lam) - 1.
Definition sl (lam : R) : R := 2 * lam / (lam - 1).
Lemma sl_pos lam : 1 < lam -> 0 < sl lam.
Proof. intros H. unfold sl. apply Rdiv_lt_0_compat; lra. Qed.
Lemma sg_hi lam t : 1 < lam -> 1 - sg lam t = sl lam * (1 - t).
Proof. intros H. unfold sg, sl. field. lra. Qed.
Lemma sg_lo lam t : 1 < lam -> 1 + sg lam t = sl lam * (t - 1 / lam).
Proof. intros H. unfold sg, sl. field. lra. Qed.
Lemma sg_in lam t : 1 < lam -> 1 / lam < t < 1 -> sg lam t * sg lam t < 1.
Proof.
  intros Hl Ht. pose proof (sl_pos lam Hl). pose proof (sg_hi lam t Hl). pose proof (sg_lo lam t Hl).
  assert (0 < (1 - sg lam t) * (1 + sg lam t)); [|lra].
  rewrite H0, H1. apply Rmult_lt_0_compat; apply Rmult_lt_0_compat; lra.
Qed.
Lemma sg_out lam t : 1 < lam -> t <= 1 / lam \/ 1 <= t -> 1 <= sg lam t * sg lam t.
Proof.
  intros Hl Ht. pose proof (sl_pos lam Hl). pose proof (sg_hi lam t Hl). pose proof (sg_lo lam t Hl).
  destruct Ht as [Ht|Ht].
  - assert (sl lam * (t - 1 / lam) <= 0) by nra. nra.
  - assert (sl lam * (1 - t) <= 0) by nra. nra.
Qed.
Lemma inv_lam_pos lam : 1 < lam -> 0 < 1 / lam < 1.
Proof.
  intros H. split; [apply Rdiv_lt_0_compat; lra|]. apply Rmult_lt_reg_r with lam; [lra|]. unfold Rdiv.
  rewrite Rmult_1_l, Rinv_l by lra. lra.
Qed.

Lemma tiling_out lam t : 1 < lam -> t <= 1 / lam \/ 1 <= t -> tiling lam t = 0.
Proof. intros Hl Ht. unfold tiling. fold (sg lam t). rewrite bump_out by now apply sg_out. unfold Rdiv. apply Rmult_0_l. Qed.
Lemma tiling_pos lam t : 1 < lam -> 0 <= tiling lam t.
Proof.
  intros Hl. destruct (Rle_dec t (1 / lam)) as [H|H]; [rewrite tiling_out by auto; lra|].
  pose proof (inv_lam_pos lam Hl). unfold tiling. apply Rmult_le_pos; [apply bump_pos|]. left. apply Rinv_0_lt_compat. lra.
Qed.
Lemma tiling_kernel lam t : 1 < lam -> 1 / lam < t < 1 -> tiling lam t = kernel_integrand lam t.
Proof. intros Hl Ht. unfold tiling, kernel_integrand. fold (sg lam t). rewrite bump_in by now apply sg_in. reflexivity. Qed.

Lemma sg_derive lam t : is_derive (sg lam) t (sl lam).
Proof. unfold sg, sl. auto_derive; [exact I|]. ring. Qed.

Lemma tiling_continuous lam t : 1 < lam -> continuous (tiling lam) t.
Proof.
  intros Hl. pose proof (inv_lam_pos lam Hl) as Hi. destruct (Rlt_dec t (1 / lam)) as [H|H].
  - apply (continuous_ext_loc _ (fun _ => 0)); [|apply continuous_const].
    assert (L : locally t (fun x => x < 1 / lam)) by (apply open_lt; exact H).
    revert L. apply filter_imp. intros x Hx. symmetry. apply tiling_out; auto. left. lra.
  - unfold tiling. apply (continuous_mult (fun t => bump (2 * lam / (lam - 1) * (t - 1 / lam) - 1)) (fun t => / t)).
    + apply (continuous_comp (sg lam) bump); [|apply bump_continuous].
      apply (ex_derive_continuous (sg lam)). exists (sl lam). apply sg_derive.
    + apply (ex_derive_continuous (fun t => / t)). auto_derive. lra.
Qed.

Definition tiling1 (lam t : R) : R := sl lam * bump1 (sg lam t) * / t + bump (sg lam t) * (- / t ^ 2).
Definition tiling2 (lam t : R) : R :=
  sl lam ^ 2 * bump2 (sg lam t) * / t - 2 * sl lam * bump1 (sg lam t) * / t ^ 2 + 2 * bump (sg lam t) * / t ^ 3.

Lemma comp_sg f f' lam t : is_derive f (sg lam t) f' -> is_derive (fun t => f (sg lam t)) t (sl lam * f').
Proof. intros H. apply (is_derive_comp f (sg lam)); [exact H|apply sg_derive]. Qed.

Lemma tiling_derive lam t : 1 < lam -> 1 / lam < t < 1 -> is_derive (tiling lam) t (tiling1 lam t).
Proof.
  intros Hl Ht. pose proof (inv_lam_pos lam Hl). unfold tiling1.
  apply (is_derive_mult (fun t => bump (sg lam t)) (fun t => / t)); [| |intros; apply Rmult_comm].
  - apply comp_sg, bump_derive, sg_in; auto.
  - auto_derive; [lra|]. field. lra.
Qed.
Lemma tiling1_derive lam t : 1 < lam -> 1 / lam < t < 1 -> is_derive (tiling1 lam) t (tiling2 lam t).
Proof.
  intros Hl Ht. pose proof (inv_lam_pos lam Hl). unfold tiling1.
  assert (D1 : is_derive (fun t => bump1 (sg lam t)) t (sl lam * bump2 (sg lam t))) by (apply comp_sg, bump1_derive, sg_in; auto).
  assert (D0 : is_derive (fun t => bump (sg lam t)) t (sl lam * bump1 (sg lam t))) by (apply comp_sg, bump_derive, sg_in; auto).
  replace (tiling2 lam t) with
    ((sl lam * (sl lam * bump2 (sg lam t))) * / t + (sl lam * bump1 (sg lam t)) * (- / t ^ 2)
     + ((sl lam * bump1 (sg lam t)) * (- / t ^ 2) + bump (sg lam t) * (2 * / t ^ 3))) by (unfold tiling2; ring).
  apply (is_derive_plus (fun t => sl lam * bump1 (sg lam t) * / t) (fun t => bump (sg lam t) * (- / t ^ 2))).
  - apply (is_derive_mult (fun t => sl lam * bump1 (sg lam t)) (fun t => / t)); [| |intros; apply Rmult_comm].
    + apply (is_derive_scal (fun t => bump1 (sg lam t))). exact D1.
    + auto_derive; [lra|]. field. lra.
  - apply (is_derive_mult (fun t => bump (sg lam t)) (fun t => - / t ^ 2)); [exact D0| |intros; apply Rmult_comm].
    auto_derive; [apply Rmult_integral_contrapositive_currified; lra|]. field. lra.
Qed.

Definition M2 (lam : R) : R := exp (-2) * (16 * sl lam ^ 2 * lam + 8 * sl lam * lam ^ 2 + 2 * lam ^ 3).
Lemma M2_pos lam : 1 < lam -> 0 <= M2 lam.
Proof.
  intros Hl. pose proof (sl_pos lam Hl). unfold M2. apply Rmult_le_pos; [left; apply exp_pos|].
  assert (0 <= sl lam ^ 2) by apply pow2_ge_0. assert (0 <= lam ^ 2) by apply pow2_ge_0. assert (0 <= lam ^ 3) by (apply pow_le; lra).
  assert (0 <= sl lam ^ 2 * lam) by (apply Rmult_le_pos; lra). assert (0 <= sl lam * lam ^ 2) by (apply Rmult_le_pos; lra). lra.
Qed.
Lemma inv_le_lam lam t : 1 < lam -> 1 / lam < t -> 0 < / t <= lam.
Proof.
  intros Hl Ht. pose proof (inv_lam_pos lam Hl). split; [apply Rinv_0_lt_compat; lra|].
  replace lam with (/ (1 / lam)) by (field; lra). apply Rinv_le_contravar; lra.
Qed.
Lemma tiling2_le lam t : 1 < lam -> 1 / lam < t < 1 -> Rabs (tiling2 lam t) <= M2 lam.
Proof.
  intros Hl Ht. pose proof (sl_pos lam Hl) as Hs. pose proof (sg_in lam t Hl Ht) as Hg.
  pose proof (bump2_le _ Hg) as B2. pose proof (bump1_le _ Hg) as B1. pose proof (bump_le (sg lam t)) as B0. pose proof (bump_pos (sg lam t)) as B0'.
  destruct (inv_le_lam lam t Hl (proj1 Ht)) as [I1 I2]. unfold tiling2, M2. rewrite <- !pow_inv.
  set (x := / t) in *. set (e := exp (-2)) in *. set (g := sg lam t) in *. set (w := sl lam) in *.
  assert (He : 0 < e) by apply exp_pos.
  assert (X2 : x ^ 2 <= lam ^ 2) by (apply pow_incr; lra). assert (X3 : x ^ 3 <= lam ^ 3) by (apply pow_incr; lra).
  assert (P2 : 0 <= x ^ 2) by (apply pow_le; lra). assert (P3 : 0 <= x ^ 3) by (apply pow_le; lra).
  assert (W2 : 0 <= w ^ 2) by (apply pow_le; lra).
  assert (T1 : Rabs (w ^ 2 * bump2 g * x) <= w ^ 2 * (16 * e) * lam).
  { rewrite (Rabs_mult _ x), (Rabs_mult _ (bump2 g)), (Rabs_pos_eq (w ^ 2)), (Rabs_pos_eq x) by lra. apply Rmult_le_compat; try lra.
    - apply Rmult_le_pos; [lra|apply Rabs_pos].
    - apply Rmult_le_compat_l; lra. }
  assert (T2 : Rabs (2 * w * bump1 g * x ^ 2) <= 2 * w * (4 * e) * lam ^ 2).
  { rewrite (Rabs_mult _ (x ^ 2)), (Rabs_mult _ (bump1 g)), (Rabs_pos_eq (2 * w)), (Rabs_pos_eq (x ^ 2)) by lra. apply Rmult_le_compat; try lra.
    - apply Rmult_le_pos; [lra|apply Rabs_pos].
    - apply Rmult_le_compat_l; lra. }
  assert (T3 : 0 <= 2 * bump g * x ^ 3 <= 2 * e * lam ^ 3).
  { split; [apply Rmult_le_pos; lra|]. apply Rmult_le_compat; lra. }
  apply Rabs_le_inv in T1, T2. apply Rabs_le. lra.
Qed.

Lemma tiling1_lip lam x y : 1 < lam -> 1 / lam < x -> x <= y -> y < 1 -> Rabs (tiling1 lam y - tiling1 lam x) <= M2 lam * (y - x).
Proof.
  intros Hl H1 H2 H3. destruct (MVT_gen (tiling1 lam) x y (tiling2 lam)) as (c & Hc & E).
  - intros z. rewrite Rmin_left, Rmax_right by lra. intros Hz. apply tiling1_derive; lra.
  - intros z. rewrite Rmin_left, Rmax_right by lra. intros Hz.
    apply continuity_pt_filterlim, (ex_derive_continuous (tiling1 lam)). exists (tiling2 lam z). apply tiling1_derive; lra.
  - rewrite Rmin_left, Rmax_right in Hc by lra. rewrite E, Rabs_mult, (Rabs_pos_eq (y - x)) by lra.
    apply Rmult_le_compat_r; [lra|]. apply tiling2_le; lra.
Qed.

Lemma tiling_ex lam a b : 1 < lam -> ex_RInt (tiling lam) a b.
Proof. intros Hl. apply (@ex_RInt_continuous R_CompleteNormedModule). intros z _. now apply tiling_continuous. Qed.

Lemma tiling_panel lam a h : 1 < lam -> 0 < h -> 1 / lam < a -> a + h < 1 ->
  Rabs (h * ((kernel_integrand lam a + kernel_integrand lam (a + h)) / 2) - RInt (tiling lam) a (a + h)) <= M2 lam * h ^ 3 / 6.
Proof.
  intros Hl Hh H1 H2. rewrite <- !tiling_kernel by (auto; lra). apply (trap_panel (tiling lam) (tiling1 lam)); auto.
  - now apply M2_pos.
  - intros x. now apply tiling_continuous.
  - intros x Hx. apply tiling_derive; lra.
  - intros x y Hx Hxy Hy. apply tiling1_lip; lra.
Qed.

(** near the ends of the support *)
Lemma tiling_end lam t h : 1 < lam -> 0 < h -> 1 - t <= h \/ t - 1 / lam <= h ->
  tiling lam t <= lam * (2 * (sl lam * h) ^ 3).
Proof.
  intros Hl Hh Ht. pose proof (sl_pos lam Hl) as Hs. assert (Hsh : 0 < sl lam * h) by (apply Rmult_lt_0_compat; lra).
  assert (Hp : 0 < (sl lam * h) ^ 3) by (apply pow_lt; lra).
  destruct (Rle_dec t (1 / lam)) as [H|H]; [rewrite tiling_out by auto; apply Rmult_le_pos; lra|].
  destruct (Rle_dec 1 t) as [H'|H']; [rewrite tiling_out by auto; apply Rmult_le_pos; lra|].
  assert (Hin : 1 / lam < t < 1) by lra. pose proof (sg_in lam t Hl Hin) as Hg. destruct (inv_le_lam lam t Hl (proj1 Hin)) as [I1 I2].
  unfold tiling. fold (sg lam t). unfold Rdiv. rewrite Rmult_comm. apply Rmult_le_compat; try lra; [apply bump_pos|].
  rewrite bump_in by assumption.
  assert (HU : 1 - sg lam t * sg lam t <= 2 * (sl lam * h)).
  { pose proof (sg_hi lam t Hl). pose proof (sg_lo lam t Hl).
    assert (sl lam * (1 - t) <= sl lam * h \/ sl lam * (t - 1 / lam) <= sl lam * h) by (destruct Ht; [left|right]; apply Rmult_le_compat_l; lra).
    assert (0 < 1 - sg lam t) by nra. assert (0 < 1 + sg lam t) by nra.
    replace (1 - sg lam t * sg lam t) with ((1 - sg lam t) * (1 + sg lam t)) by ring. nra. }
  assert (HV : / (sl lam * h) <= 2 / (1 - sg lam t * sg lam t)).
  { replace (/ (sl lam * h)) with (2 * / (2 * (sl lam * h))) by (field; lra). unfold Rdiv. apply Rmult_le_compat_l; [lra|].
    apply Rinv_le_contravar; lra. }
  assert (Hi : 0 < / (sl lam * h)) by (apply Rinv_0_lt_compat; lra).
  apply Rle_trans with (exp (- / (sl lam * h))).
  - destruct HV as [HV|HV]; [left; apply exp_increasing; lra|rewrite HV; lra].
  - pose proof (exp_cube (/ (sl lam * h)) Hi) as HC.
    replace (2 / (/ (sl lam * h)) ^ 3) with (2 * (sl lam * h) ^ 3) in HC by (field; lra). exact HC.
Qed.
