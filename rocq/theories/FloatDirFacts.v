(** * Facts behind the binary64 directional filters: pi, relative errors *)

From Coq Require Import ZArith Reals List Bool Lia Lra Psatz QArith Qreals Machin.
From Flocq Require Import Core Relative IEEE754.BinarySingleNaN.
From Verif Require Import Py PyFacts ModelFloat ModelFloatDir FloatFacts FloatDefault.
Import ListNotations.
Open Scope Z_scope.

(** ** pi *)
Local Open Scope Q_scope.
Fixpoint qpow (q : Q) (n : nat) : Q := match n with O => 1 | S n => Qred (q * qpow q n) end.
Definition qterm (n : nat) : Q :=
  let d := Z.of_nat (2 * n + 1) # 1 in
  (if Nat.even n then 1 else -1) * (2 * (qpow (1 # 3) (2 * n + 1) / d) + qpow (1 # 7) (2 * n + 1) / d).
Fixpoint qsum (n : nat) : Q := match n with O => qterm 0 | S m => Qred (qsum m + qterm n) end.
Lemma qpow_ok q n : Q2R (qpow q n) = (Q2R q ^ n)%R.
Proof.
  induction n as [|n IH]; [unfold Q2R; cbn; lra|]. cbn [qpow pow]. rewrite (Qeq_eqR _ _ (Qred_correct _)), Q2R_mult, IH. reflexivity.
Qed.
Lemma qterm_ok n : Q2R (qterm n) = tg_alt PI_2_3_7_tg n.
Proof.
  unfold qterm, tg_alt, PI_2_3_7_tg, Ratan_seq.
  assert (Hd : Q2R (Z.of_nat (2 * n + 1) # 1) = INR (2 * n + 1)).
  { unfold Q2R. cbn [Qnum Qden]. rewrite INR_IZR_INZ. field. }
  assert (Hn : ~ (Z.of_nat (2 * n + 1) # 1) == 0).
  { intros E. apply Qeq_eqR in E. rewrite Hd in E. unfold Q2R in E. cbn in E. rewrite Rmult_0_l in E.
    apply (not_INR (2 * n + 1) 0); [lia|]. exact E. }
  rewrite Q2R_mult, Q2R_plus, Q2R_mult, !Q2R_div, !qpow_ok, Hd by exact Hn.
  replace (Q2R (1 # 3)) with (/ 3)%R by (unfold Q2R; cbn; lra). replace (Q2R (1 # 7)) with (/ 7)%R by (unfold Q2R; cbn; lra).
  replace (Q2R 2) with 2%R by (unfold Q2R; cbn; lra). f_equal.
  replace (Q2R (if Nat.even n then 1 else -1)) with (if Nat.even n then 1 else -1)%R by (destruct (Nat.even n); unfold Q2R; cbn; lra).
  destruct (Nat.even n) eqn:E.
  - apply Nat.even_spec in E as (p & ->). now rewrite pow_1_even.
  - assert (O : Nat.odd n = true) by (unfold Nat.odd; now rewrite E). apply Nat.odd_spec in O as (p & ->).
    replace (2 * p + 1)%nat with (S (2 * p)) by lia. now rewrite pow_1_odd.
Qed.
Lemma qsum_ok n : Q2R (qsum n) = sum_f_R0 (tg_alt PI_2_3_7_tg) n.
Proof.
  induction n as [|n IH]; [cbn [qsum sum_f_R0]; apply qterm_ok|].
  cbn [qsum]. rewrite tech5, <- IH, (Qeq_eqR _ _ (Qred_correct _)), Q2R_plus, qterm_ok. reflexivity.
Qed.
Lemma pi_bounds : (884279719003555 / 281474976710656 < PI <= 884279719003555 / 281474976710656 + / 4503599627370496)%R.
Proof.
  destruct (PI_2_3_7_ineq 9) as [A B]. rewrite <- !qsum_ok in A, B.
  assert (HA : (884279719003555 # 1125899906842624) < qsum (S (2 * 9))) by (apply Qlt_alt; vm_compute; reflexivity).
  assert (HB : qsum (2 * 9) <= (884279719003555 # 1125899906842624) + (1 # 18014398509481984)) by (apply Qle_alt; vm_compute; discriminate).
  apply Qlt_Rlt in HA. apply Qle_Rle in HB. rewrite Q2R_plus in HB. unfold Q2R in HA, HB. cbn [Qnum Qden] in HA, HB.
  unfold Q2R in A, B. set (a := (IZR (Qnum (qsum (S (2 * 9)))) * / IZR (Z.pos (Qden (qsum (S (2 * 9))))))%R) in *. set (b := (IZR (Qnum (qsum (2 * 9))) * / IZR (Z.pos (Qden (qsum (2 * 9)))))%R) in *.
  clearbody a b. split; lra.
Qed.
Close Scope Q_scope.

(** ** relative errors, multiplicatively: x is y up to a factor exp(+-e) *)
Definition apx (e x y : R) : Prop := (0 <= y /\ y * exp (- e) <= x <= y * exp e)%R.

Lemma exp_mono x y : (x <= y)%R -> (exp x <= exp y)%R.
Proof. intros [H| ->]; [left; now apply exp_increasing|right; reflexivity]. Qed.
Lemma apx_refl e x : (0 <= e)%R -> (0 <= x)%R -> apx e x x.
Proof.
  intros He Hx. split; [exact Hx|]. pose proof (exp_mono (- e) 0 ltac:(lra)). pose proof (exp_mono 0 e ltac:(lra)). rewrite exp_0 in *.
  split; [rewrite <- (Rmult_1_r x) at 2|rewrite <- (Rmult_1_r x) at 1]; apply Rmult_le_compat_l; lra.
Qed.
Lemma apx_weak e e' x y : (e <= e')%R -> apx e x y -> apx e' x y.
Proof.
  intros He (A & B & C). split; [exact A|]. pose proof (exp_mono (- e') (- e) ltac:(lra)). pose proof (exp_mono e e' He).
  split; [apply Rle_trans with (2 := B)|apply Rle_trans with (1 := C)]; apply Rmult_le_compat_l; auto.
Qed.
Lemma apx_nonneg e x y : apx e x y -> (0 <= x)%R.
Proof. intros (A & B & _). apply Rle_trans with (2 := B), Rmult_le_pos; [exact A|left; apply exp_pos]. Qed.
Lemma apx_sym e x y : apx e x y -> apx e y x.
Proof.
  intros H. split; [eapply apx_nonneg; eassumption|]. destruct H as (A & B & C). pose proof (exp_pos e) as P. pose proof (exp_pos (- e)) as P'.
  assert (E : (exp e * exp (- e) = 1)%R) by (rewrite <- exp_plus, Rplus_opp_r; apply exp_0).
  split; [apply Rle_trans with (y * exp e * exp (- e))%R|apply Rle_trans with (y * exp (- e) * exp e)%R].
  - apply Rmult_le_compat_r; lra.
  - rewrite Rmult_assoc, E. lra.
  - rewrite Rmult_assoc, (Rmult_comm (exp (- e))), E. lra.
  - apply Rmult_le_compat_r; lra.
Qed.
Lemma apx_trans e1 e2 x y z : apx e1 x y -> apx e2 y z -> apx (e1 + e2) x z.
Proof.
  intros (A & B & C) (D & E & F). split; [exact D|]. rewrite Ropp_plus_distr, !exp_plus. pose proof (exp_pos e1). pose proof (exp_pos (- e1)).
  rewrite (Rmult_comm (exp (- e1))), (Rmult_comm (exp e1)), <- !Rmult_assoc.
  split; [apply Rle_trans with (2 := B)|apply Rle_trans with (1 := C)]; apply Rmult_le_compat_r; lra.
Qed.
Lemma apx_mul e1 e2 x1 x2 y1 y2 : apx e1 x1 y1 -> apx e2 x2 y2 -> apx (e1 + e2) (x1 * x2) (y1 * y2).
Proof.
  intros H1 H2. pose proof (apx_nonneg _ _ _ H1). pose proof (apx_nonneg _ _ _ H2). destruct H1 as (A & B & C), H2 as (D & E & F).
  split; [now apply Rmult_le_pos|]. rewrite Ropp_plus_distr, !exp_plus.
  pose proof (exp_pos e1). pose proof (exp_pos (- e1)). pose proof (exp_pos e2). pose proof (exp_pos (- e2)).
  replace (y1 * y2 * (exp (- e1) * exp (- e2)))%R with (y1 * exp (- e1) * (y2 * exp (- e2)))%R by ring.
  replace (y1 * y2 * (exp e1 * exp e2))%R with (y1 * exp e1 * (y2 * exp e2))%R by ring.
  split; apply Rmult_le_compat; auto; apply Rmult_le_pos; lra.
Qed.
Lemma apx_inv e x y : (0 < y)%R -> apx e x y -> apx e (/ x) (/ y).
Proof.
  intros Hy (A & B & C). assert (Hx : (0 < x)%R) by (apply Rlt_le_trans with (2 := B), Rmult_lt_0_compat; [exact Hy|apply exp_pos]).
  split; [left; now apply Rinv_0_lt_compat|]. pose proof (exp_pos e). pose proof (exp_pos (- e)). split.
  - rewrite exp_Ropp, <- Rinv_mult. apply Rinv_le_contravar; auto.
  - replace (exp e) with (/ exp (- e))%R by (rewrite <- exp_Ropp; f_equal; ring). rewrite <- Rinv_mult.
    apply Rinv_le_contravar; auto. now apply Rmult_lt_0_compat.
Qed.
Lemma apx_div e1 e2 x1 x2 y1 y2 : apx e1 x1 y1 -> apx e2 x2 y2 -> (0 < y2)%R -> apx (e1 + e2) (x1 / x2) (y1 / y2).
Proof. intros. apply apx_mul; auto. now apply apx_inv. Qed.
Lemma apx_sqrt e x y : apx e x y -> apx (e / 2) (sqrt x) (sqrt y).
Proof.
  intros (A & B & C). split; [apply sqrt_pos|].
  assert (S : forall t, exp (t / 2) = sqrt (exp t)).
  { intros t. symmetry. apply sqrt_lem_1; [left; apply exp_pos|left; apply exp_pos|]. rewrite <- exp_plus. f_equal. field. }
  replace (- (e / 2))%R with (- e / 2)%R by field. rewrite !S, <- !sqrt_mult_alt by exact A. split; apply sqrt_le_1_alt; auto.
Qed.
Lemma apx_sq e x y : apx e x y -> apx (2 * e) (x ^ 2) (y ^ 2).
Proof. intros H. replace (2 * e)%R with (e + e)%R by ring. replace (x ^ 2)%R with (x * x)%R by ring. replace (y ^ 2)%R with (y * y)%R by ring. now apply apx_mul. Qed.
Lemma apx_add e x1 x2 y1 y2 : apx e x1 y1 -> apx e x2 y2 -> apx e (x1 + x2) (y1 + y2).
Proof. intros (A & B & C) (D & E & F). split; [lra|]. rewrite !Rmult_plus_distr_r. lra. Qed.
Lemma apx_abs e x y : (0 <= e <= / 2)%R -> apx e x y -> (Rabs (x - y) <= 2 * e * y)%R.
Proof.
  intros He (A & B & C). assert (U : (exp e <= 1 + 2 * e)%R).
  { replace e with (- - e)%R at 1 by ring. rewrite exp_Ropp. apply Rle_trans with (/ (1 - e))%R.
    - apply Rinv_le_contravar; [lra|]. pose proof (exp_ineq1_le (- e)). lra.
    - apply Rmult_le_reg_r with (1 - e)%R; [lra|]. rewrite Rinv_l by lra. nra. }
  assert (V : (1 - e <= exp (- e))%R) by (pose proof (exp_ineq1_le (- e)); lra).
  assert (y * exp e <= y * (1 + 2 * e))%R by (apply Rmult_le_compat_l; lra).
  assert (y * (1 - e) <= y * exp (- e))%R by (apply Rmult_le_compat_l; lra).
  assert (0 <= e * y)%R by (apply Rmult_le_pos; lra). apply Rabs_le. lra.
Qed.

(** one rounding *)
Definition u1 : R := (17 / 16 * eps)%R.
Lemma u1_pos : (0 < u1 <= / 1000000)%R.
Proof. unfold u1, eps. lra. Qed.
Lemma apx_rnd x : (x = 0 \/ bpow radix2 (-1022) <= x)%R -> apx u1 (rnd x) x.
Proof.
  intros [->|H].
  - rewrite rnd_0. apply apx_refl; [pose proof u1_pos|]; lra.
  - assert (P : (0 < x)%R) by (apply Rlt_le_trans with (2 := H), bpow_gt_0).
    pose proof (rnd_rel x) as R. rewrite (Rabs_pos_eq x) in R by lra. specialize (R H). apply Rabs_le_inv in R.
    split; [lra|]. pose proof u1_pos. assert (He : (0 < eps <= / 9007199254740992)%R) by (unfold eps; lra). split.
    + apply Rle_trans with (x * (1 - eps))%R; [|lra]. apply Rmult_le_compat_l; [lra|].
      rewrite exp_Ropp. apply Rle_trans with (/ (1 + u1))%R.
      * apply Rinv_le_contravar; [lra|]. apply exp_ineq1_le.
      * apply Rmult_le_reg_r with (1 + u1)%R; [lra|]. rewrite Rinv_l by lra. unfold u1. nra.
    + apply Rle_trans with (x * (1 + eps))%R; [lra|]. apply Rmult_le_compat_l; [lra|].
      pose proof (exp_ineq1_le u1). unfold u1 in *. lra.
Qed.

(** the operations *)
Definition norm_range (x : R) : Prop := ((x = 0 \/ bpow radix2 (-1000) <= x) /\ x <= bpow radix2 1000)%R.
Lemma exp1_4 : (exp 1 <= 4)%R.
Proof. pose proof exp_le_3. lra. Qed.
Lemma range_apx e x y : (0 <= e <= 1)%R -> apx e x y -> norm_range y ->
  (x = 0 \/ bpow radix2 (-1022) <= x)%R /\ (Rabs (rnd x) < bpow radix2 1024)%R.
Proof.
  intros He H [R1 R2]. pose proof (apx_nonneg _ _ _ H) as Hx. destruct H as (A & B & C).
  assert (E1 : (exp e <= 4)%R) by (apply Rle_trans with (2 := exp1_4), exp_mono; lra).
  assert (E2 : (/ 4 <= exp (- e))%R) by (rewrite exp_Ropp; apply Rinv_le_contravar; [apply exp_pos|exact E1]).
  split.
  - destruct R1 as [->|R1]; [left; lra|right]. apply Rle_trans with (2 := B).
    apply Rle_trans with (bpow radix2 (-1000) * / 4)%R.
    + change (/ 4)%R with (bpow radix2 (-2)). rewrite <- bpow_plus. apply bpow_le. lia.
    + apply Rmult_le_compat; auto; [apply bpow_ge_0|lra].
  - assert (U : (x <= bpow radix2 1002)%R).
    { apply Rle_trans with (1 := C). apply Rle_trans with (bpow radix2 1000 * 4)%R.
      - apply Rmult_le_compat; auto. left. apply exp_pos.
      - change 4%R with (bpow radix2 2). rewrite <- bpow_plus. right. f_equal. }
    rewrite Rabs_pos_eq by now apply rnd_pos. apply Rle_lt_trans with (bpow radix2 1002); [|apply bpow_lt; lia].
    apply rnd_le_f; [|exact U]. change (SpecFloat.fexp 53 1024) with (FLT_exp (-1074) 53). apply generic_format_bpow. unfold FLT_exp. lia.
Qed.
Definition fa (e : R) (x : f64) (y : R) : Prop := is_finite x = true /\ apx e (B2R x) y.
Lemma fa_weak e e' x y : (e <= e')%R -> fa e x y -> fa e' x y.
Proof. intros He [F A]. split; [exact F|]. now apply (apx_weak e). Qed.
Lemma fa_mul e1 e2 x y X Y : (0 <= e1 + e2 <= 1)%R -> fa e1 x X -> fa e2 y Y -> norm_range (X * Y) -> fa (e1 + e2 + u1) (fmul x y) (X * Y).
Proof.
  intros He [F1 A1] [F2 A2] R. pose proof (apx_mul _ _ _ _ _ _ A1 A2) as M. destruct (range_apx _ _ _ He M R) as [N O].
  destruct (fmul_ok x y F1 F2 O) as [F E]. split; [exact F|]. rewrite E, Rplus_comm. apply apx_trans with (2 := M). now apply apx_rnd.
Qed.
Lemma fa_div e1 e2 x y X Y : (0 <= e1 + e2 <= 1)%R -> fa e1 x X -> fa e2 y Y -> (0 < Y)%R -> norm_range (X / Y) -> fa (e1 + e2 + u1) (fdiv x y) (X / Y).
Proof.
  intros He [F1 A1] [F2 A2] HY R. pose proof (apx_div _ _ _ _ _ _ A1 A2 HY) as M. destruct (range_apx _ _ _ He M R) as [N O].
  assert (Ny : B2R y <> 0%R). { destruct A2 as (_ & B & _). pose proof (Rmult_lt_0_compat _ _ HY (exp_pos (- e2))). lra. }
  destruct (fdiv_ok x y F1 Ny O) as [F E]. split; [exact F|]. rewrite E, Rplus_comm. apply apx_trans with (2 := M). now apply apx_rnd.
Qed.
Lemma fa_sqrt e x X : (0 <= e <= 1)%R -> fa e x X -> norm_range (sqrt X) -> fa (e / 2 + u1) (fsqrt x) (sqrt X).
Proof.
  intros He [F1 A1] R. pose proof (apx_sqrt _ _ _ A1) as M. destruct (range_apx (e / 2) _ _ ltac:(lra) M R) as [N O].
  destruct (fsqrt_ok x F1 (apx_nonneg _ _ _ A1)) as [F E]. split; [exact F|]. rewrite E, Rplus_comm. apply apx_trans with (2 := M). now apply apx_rnd.
Qed.

(** np.pi *)
Lemma fa_pi : fa u1 fpi PI.
Proof.
  pose proof (binary_normalize_correct 53 1024 gt53 lt53 mode_NE 7074237752028440 (-51) false) as H. cbv zeta in H.
  change (binary_normalize 53 1024 gt53 lt53 mode_NE 7074237752028440 (-51) false) with fpi in H.
  assert (E : F2R (Float radix2 7074237752028440 (-51)) = (884279719003555 / 281474976710656)%R).
  { unfold F2R. cbn [Fnum Fexp]. change (bpow radix2 (-51)) with (/ 2251799813685248)%R. lra. }
  assert (G : rnd (F2R (Float radix2 7074237752028440 (-51))) = (884279719003555 / 281474976710656)%R).
  { rewrite <- E. apply (rnd_grid 7074237752028440 (-51)); [vm_compute; discriminate|lia]. }
  rewrite G, Rlt_bool_true in H.
  2:{ apply Rle_lt_trans with (bpow radix2 2); [|apply bpow_lt; lia]. change (bpow radix2 2) with 4%R. apply Rabs_le. lra. }
  destruct H as (HV & HF & _). split; [exact HF|]. rewrite HV. pose proof pi_bounds as P. split; [lra|].
  assert (He : (0 < eps <= / 9007199254740992)%R) by (unfold eps; lra). pose proof u1_pos. split.
  - apply Rle_trans with (PI * (1 - eps))%R; [|unfold eps; nra]. apply Rmult_le_compat_l; [lra|].
    rewrite exp_Ropp. apply Rle_trans with (/ (1 + u1))%R.
    + apply Rinv_le_contravar; [lra|]. apply exp_ineq1_le.
    + apply Rmult_le_reg_r with (1 + u1)%R; [lra|]. rewrite Rinv_l by lra. unfold u1. nra.
  - apply Rle_trans with (PI * 1)%R; [lra|]. apply Rmult_le_compat_l; [lra|]. pose proof (exp_ineq1_le u1). lra.
Qed.
