(** Statements and proofs for PropertiesFloat.v *)

From Coq Require Import ZArith Reals List Bool Lia Lra Psatz.
From Coquelicot Require Import Coquelicot.
From Flocq Require Import Core Relative IEEE754.BinarySingleNaN.
From Verif Require Import Py PyFacts ModelSamples SamplesFacts ModelFilters FiltersFacts ModelFloat.
Import ListNotations.
Open Scope Z_scope.

(*T Behaviour in binary64 *)
(*! From Coq Require Import ZArith Reals List Bool. *)
(*! From Flocq Require Import Core IEEE754.BinarySingleNaN. *)
(*! Import ListNotations. *)
(*! From Verif Require Import Py ModelSamples ModelFilters ModelFloat. *)

(*% ** C45: j_max *)

Open Scope R_scope.
Definition u52 : R := / 4503599627370496.
Lemma u52_bpow : u52 = bpow radix2 (-52).
Proof. unfold u52. cbn. lra. Qed.
Lemma u52_bounds : 0 < u52 < / 1000000.
Proof. unfold u52. lra. Qed.

Lemma quot_error A B a b y : 0 <= A -> 0 < B ->
  Rabs (a - A) <= u52 * Rabs A -> Rabs (b - B) <= u52 * Rabs B ->
  Rabs (y - a / b) <= / 2 * u52 * Rabs (a / b) -> Rabs (y - A / B) <= 4 * u52 * (A / B).
Proof.
  intros HA HB Ha Hb Hy. pose proof u52_bounds as Hu. set (u := u52) in *.
  rewrite (Rabs_pos_eq A) in Ha by lra. rewrite (Rabs_pos_eq B) in Hb by lra.
  apply Rabs_le_inv in Ha, Hb.
  assert (Hb1 : 0 < b) by nra. assert (Ha1 : 0 <= a) by nra.
  assert (Hab : 0 <= a / b) by (apply Rdiv_le_0_compat; lra || assumption).
  rewrite (Rabs_pos_eq (a / b)) in Hy by lra. apply Rabs_le_inv in Hy.
  assert (HX : 0 <= A / B) by (apply Rdiv_le_0_compat; lra).
  assert (E1 : a / b * b = a) by (field; lra). assert (E2 : A / B * B = A) by (field; lra).
  set (q := a / b) in *. set (x := A / B) in *.
  assert (Hq1 : q * (1 - u) <= x * (1 + u)).
  { apply Rmult_le_reg_r with B; [lra|]. replace (x * (1 + u) * B) with (A * (1 + u)) by (rewrite <- E2; ring).
    apply Rle_trans with (q * b); [|lra]. rewrite Rmult_assoc. apply Rmult_le_compat_l; lra. }
  assert (Hq2 : x * (1 - u) <= q * (1 + u)).
  { apply Rmult_le_reg_r with B; [lra|]. replace (x * (1 - u) * B) with (A * (1 - u)) by (rewrite <- E2; ring).
    apply Rle_trans with (q * b); [lra|]. rewrite Rmult_assoc. apply Rmult_le_compat_l; lra. }
  apply Rabs_le. split.
  - (* y >= q (1 - u/2) >= x (1 - 4u) *)
    assert (x * (1 - 4 * u) <= y); [|lra].
    apply Rle_trans with (q * (1 - / 2 * u)); [|lra].
    apply Rmult_le_reg_r with (1 + u); [lra|].
    apply Rle_trans with (x * (1 - u) * (1 - / 2 * u)); [|apply Rle_trans with (q * (1 + u) * (1 - / 2 * u)); [|right; ring]].
    + rewrite !Rmult_assoc. apply Rmult_le_compat_l; [lra|nra].
    + apply Rmult_le_compat_r; lra.
  - assert (y <= x * (1 + 4 * u)); [|lra].
    apply Rle_trans with (q * (1 + / 2 * u)); [lra|].
    apply Rmult_le_reg_r with (1 - u); [lra|].
    apply Rle_trans with (q * (1 - u) * (1 + / 2 * u)); [right; ring|].
    apply Rle_trans with (x * (1 + u) * (1 + / 2 * u)); [apply Rmult_le_compat_r; lra|].
    rewrite !Rmult_assoc. apply Rmult_le_compat_l; [lra|nra].
Qed.

Lemma exp_ge_lin x : 1 + x <= exp x.
Proof. destruct (Req_dec x 0) as [->|]; [rewrite exp_0; lra|]. left. now apply exp_ineq1. Qed.
Lemma ln_le_sub x : 0 < x -> ln x <= x - 1.
Proof. intros. pose proof (exp_ge_lin (ln x)) as H1. rewrite exp_ln in H1 by assumption. lra. Qed.
Lemma ln2_bounds : / 2 <= ln 2 <= 1.
Proof.
  split; [|pose proof (ln_le_sub 2); lra].
  pose proof (ln_le_sub (/ 2) ltac:(lra)) as H. rewrite ln_Rinv in H by lra. lra.
Qed.
Lemma ln_IZR2 L : (2 <= L)%Z -> / 2 <= ln (IZR L).
Proof.
  intros HL. apply Rle_trans with (ln 2); [apply ln2_bounds|]. destruct (Z.eq_dec L 2) as [->|]; [lra|].
  left. apply ln_increasing; [lra|]. apply (IZR_lt 2). lia.
Qed.
Lemma ln_bpow e : ln (bpow radix2 e) = IZR e * ln 2.
Proof.
  rewrite bpow_exp. rewrite ln_exp. reflexivity.
Qed.

Lemma fp_error flog L lam : (1 <= L)%Z -> 1 < lam <= bpow radix2 1024 ->
  accurate_at flog (IZR L) -> accurate_at flog lam ->
  Rabs (rnd64 (flog (IZR L) / flog lam) - ln (IZR L) / ln lam) <= 4 * u52 * (ln (IZR L) / ln lam).
Proof.
  intros HL [Hl1 Hl2] HaL Hal. unfold accurate_at in *. rewrite <- u52_bpow in *.
  pose proof (ln_pos lam Hl1) as HB.
  destruct (Z.eq_dec L 1) as [->|HL1].
  { rewrite ln_1 in *. rewrite Rabs_R0, Rmult_0_r, Rminus_0_r in HaL.
    assert (E : flog 1 = 0) by (apply Rabs_eq_0; pose proof (Rabs_pos (flog 1)); lra).
    rewrite E. unfold rnd64, Rdiv. rewrite !Rmult_0_l, round_0 by apply valid_rnd_N.
    rewrite Rminus_0_r, Rabs_R0. lra. }
  pose proof (ln_IZR2 L ltac:(lia)) as HA. pose proof u52_bounds as Hu.
  assert (HBu : ln lam <= 1024).
  { apply Rle_trans with (ln (bpow radix2 1024)).
    - destruct Hl2 as [Hl2| ->]; [left; apply ln_increasing; lra|lra].
    - rewrite ln_bpow. pose proof ln2_bounds. lra. }
  apply (quot_error (ln (IZR L)) (ln lam) (flog (IZR L)) (flog lam)); auto; [lra|].
  rewrite u52_bpow. change (bpow radix2 (-52)) with (bpow radix2 (-53 + 1)).
  apply relative_error_N_FLT. lia.
  apply Rle_trans with (/ 4096).
  { apply Rle_trans with (bpow radix2 (-12)); [apply bpow_le; lia|cbn; lra]. }
  rewrite (Rabs_pos_eq (ln (IZR L))) in HaL by lra. rewrite (Rabs_pos_eq (ln lam)) in Hal by lra.
  apply Rabs_le_inv in HaL, Hal.
  assert (u52 * ln (IZR L) <= / 1000000 * ln (IZR L)) by (apply Rmult_le_compat_r; lra).
  assert (u52 * ln lam <= / 1000000 * ln lam) by (apply Rmult_le_compat_r; lra).
  assert (/ 4 <= flog (IZR L)) by lra. assert (0 < flog lam <= 1024 * (1 + / 1000000)) by lra.
  rewrite Rabs_pos_eq by (apply Rdiv_le_0_compat; lra).
  apply Rmult_le_reg_r with (flog lam); [lra|]. unfold Rdiv. rewrite Rmult_assoc, Rinv_l by lra. lra.
Qed.
Close Scope R_scope.

(*% within one scale of the exact value, for every dilation *)
(*@ C45_within_one_scale *)
Lemma fp_within_one : forall flog L lam J, 1 <= L <= 2 ^ 53 -> (1 + bpow radix2 (-43) <= lam <= bpow radix2 1024)%R ->
  accurate_at flog (IZR L) -> accurate_at flog lam -> j_max L lam = Ok J ->
  J - 1 <= j_max_fp flog L lam <= J + 1.
Proof.
  intros flog L lam J [HL HL2] Hlam HaL Hal EJ.
  assert (H43 : (0 < bpow radix2 (-43))%R) by apply bpow_gt_0.
  assert (Hl1 : (1 < lam)%R) by lra.
  pose proof (fp_error flog L lam HL ltac:(lra) HaL Hal) as HE.
  rewrite j_max_ok in EJ by assumption. apply Ok_inj in EJ. unfold j_max_fp, rceil in *.
  set (y := rnd64 _) in *. set (x := (ln (IZR L) / ln lam)%R) in *.
  assert (HB : (bpow radix2 (-44) <= ln lam)%R).
  { pose proof (ln_le_sub (/ lam) ltac:(apply Rinv_0_lt_compat; lra)) as H. rewrite ln_Rinv in H by lra.
    apply Rle_trans with (1 - / lam)%R; [|lra].
    apply Rle_trans with (1 - / (1 + bpow radix2 (-43)))%R.
    - cbn. lra.
    - apply Rplus_le_compat_l, Ropp_le_contravar, Rinv_le_contravar; lra. }
  assert (HA : (ln (IZR L) <= 53)%R).
  { apply Rle_trans with (ln (bpow radix2 53)); [|rewrite ln_bpow; pose proof ln2_bounds; lra].
    apply IZR_le in HL2. change (IZR (2 ^ 53)) with (bpow radix2 53) in HL2. pose proof (IZR_ge1 L HL).
    destruct HL2 as [H1| ->]; [left; apply ln_increasing; lra|lra]. }
  assert (Hb44 : (0 < bpow radix2 (-44))%R) by apply bpow_gt_0.
  assert (Hx0 : (0 <= x)%R).
  { apply Rdiv_le_0_compat; [|lra]. rewrite <- ln_1. pose proof (IZR_ge1 L HL) as [H1|H1]; [left; apply ln_increasing; lra|right; now rewrite H1]. }
  assert (Hx : (4 * u52 * x <= 1)%R).
  { assert (x <= 53 * bpow radix2 44)%R.
    { unfold x. apply Rmult_le_reg_r with (ln lam); [lra|]. unfold Rdiv. rewrite Rmult_assoc, Rinv_l by lra.
      apply Rle_trans with (53 * bpow radix2 44 * bpow radix2 (-44))%R.
      - rewrite Rmult_assoc, <- bpow_plus. cbn. lra.
      - apply Rmult_le_compat_l; [|assumption]. cbn. lra. }
    unfold u52. change (bpow radix2 44) with (IZR 17592186044416) in H. lra. }
  apply Rabs_le_inv in HE. subst J.
  pose proof (Zceil_ub y). pose proof (Zceil_lb y). pose proof (Zceil_ub x). pose proof (Zceil_lb x).
  assert (Zceil y < Zceil x + 2) by (apply lt_IZR; rewrite plus_IZR; lra).
  assert (Zceil x < Zceil y + 2) by (apply lt_IZR; rewrite plus_IZR; lra). lia.
Qed.

Lemma ln_ratio_lb a b : (0 < a)%R -> (a < b)%R -> ((b - a) / b <= ln b - ln a)%R.
Proof.
  intros Ha Hb. pose proof (ln_le_sub (a / b) ltac:(apply Rdiv_lt_0_compat; lra)) as H.
  rewrite ln_div in H by lra. replace ((b - a) / b)%R with (1 - a / b)%R by (field; lra). lra.
Qed.
Lemma pw_IZR k j : 0 <= j -> powerRZ (IZR k) j = IZR (k ^ j).
Proof.
  intros. rewrite <- (Z2Nat.id j) at 1 by assumption. rewrite <- pow_powerRZ, pow_IZR. f_equal. f_equal. now rewrite Z2Nat.id.
Qed.
Lemma ln_pw lam j : (0 < lam)%R -> ln (powerRZ lam j) = (IZR j * ln lam)%R.
Proof. intros. rewrite pw_exp by assumption. apply ln_exp. Qed.

(*% for an integer dilation the computed scale covers the band-limit, and is exact unless L is a power of lam *)
(*@ C45_integer_dilations *)
Lemma fp_integer : forall flog L k J, 1 <= L <= 2 ^ 43 -> 2 <= k <= 2 ^ 1023 ->
  accurate_at flog (IZR L) -> accurate_at flog (IZR k) -> j_max L (IZR k) = Ok J ->
  (j_max_fp flog L (IZR k) = J \/ (j_max_fp flog L (IZR k) = J + 1 /\ L = k ^ J)) /\
  (IZR L <= powerRZ (IZR k) (j_max_fp flog L (IZR k)))%R.
Proof.
  intros flog L k J [HL HL2] [Hk Hk2] HaL Hal EJ. set (lam := IZR k) in *.
  assert (Hl2 : (2 <= lam)%R) by (now apply (IZR_le 2)).
  assert (HlU : (lam <= bpow radix2 1024)%R).
  { apply Rle_trans with (IZR (2 ^ 1023)); [now apply IZR_le|]. change (IZR (2 ^ 1023)) with (bpow radix2 1023). apply bpow_le. lia. }
  pose proof (fp_error flog L lam HL ltac:(lra) HaL Hal) as HE.
  pose proof (ln_pos lam ltac:(lra)) as HB.
  pose proof (proj1 (j_max_iff L lam J HL ltac:(lra)) EJ) as [HJ1 HJ2].
  pose proof (j_max_nonneg L lam J HL ltac:(lra) EJ) as HJ0.
  assert (HA0 : (0 <= ln (IZR L))%R).
  { rewrite <- ln_1. pose proof (IZR_ge1 L HL) as [H1|H1]; [left; apply ln_increasing; lra|right; now rewrite H1]. }
  assert (HA : (ln (IZR L) <= 43)%R).
  { apply Rle_trans with (ln (bpow radix2 43)); [|rewrite ln_bpow; pose proof ln2_bounds; lra].
    apply IZR_le in HL2. change (IZR (2 ^ 43)) with (bpow radix2 43) in HL2. pose proof (IZR_ge1 L HL).
    destruct HL2 as [H1| ->]; [left; apply ln_increasing; lra|lra]. }
  assert (HLr : (1 <= IZR L <= 8796093022208)%R) by (split; [now apply IZR_ge1|apply (IZR_le L 8796093022208); exact HL2]).
  unfold j_max_fp, rceil. set (y := rnd64 _) in *. set (A := ln (IZR L)) in *. set (B := ln lam) in *.
  assert (HAx : (A / B * B = A)%R) by (field; lra).
  set (x := (A / B)%R) in *. apply Rabs_le_inv in HE.
  assert (HyB : (A - 4 * u52 * A <= y * B <= A + 4 * u52 * A)%R).
  { replace (A - 4 * u52 * A)%R with ((x - 4 * u52 * x) * B)%R by (rewrite <- HAx; ring).
    replace (A + 4 * u52 * A)%R with ((x + 4 * u52 * x) * B)%R by (rewrite <- HAx; ring).
    split; apply Rmult_le_compat_r; lra. }
  assert (HuA : (4 * u52 * A <= 43 * 4 * u52)%R) by (pose proof u52_bounds; nra).
  assert (Hu : (43 * 4 * u52 < / 8796093022210)%R) by (unfold u52; lra).
  (* y > J - 1 *)
  assert (Hlow : (IZR (J - 1) < y)%R).
  { destruct (Z.eq_dec J 0) as [->|HJ].
    - assert (L = 1) as EL1 by (rewrite pw_0 in HJ2; apply (le_IZR L 1) in HJ2; lia).
      apply Rmult_lt_reg_r with B; [lra|]. unfold A in HyB. rewrite EL1, ln_1 in HyB. change (0 - 1) with (-1). lra.
    - apply Rmult_lt_reg_r with B; [lra|]. unfold B at 1. rewrite <- ln_pw by lra.
      unfold lam in HJ1. rewrite pw_IZR in HJ1 by lia. apply lt_IZR in HJ1.
      unfold lam at 1. rewrite pw_IZR by lia.
      assert (HP : 0 < k ^ (J - 1)) by (apply Z.pow_pos_nonneg; lia).
      pose proof (ln_ratio_lb (IZR (k ^ (J - 1))) (IZR L) ltac:(now apply (IZR_lt 0)) ltac:(now apply IZR_lt)) as HR.
      fold A in HR. assert (/ 8796093022208 <= (IZR L - IZR (k ^ (J - 1))) / IZR L)%R; [|lra].
      apply Rle_trans with (1 * / IZR L)%R.
      + rewrite Rmult_1_l. apply Rinv_le_contravar; lra.
      + apply Rmult_le_compat_r; [left; apply Rinv_0_lt_compat; lra|]. rewrite <- minus_IZR. apply (IZR_le 1). lia. }
  assert (Hup : (y <= IZR J)%R \/ (y <= IZR (J + 1))%R /\ L = k ^ J).
  { unfold lam in HJ2. rewrite pw_IZR in HJ2 by lia. apply le_IZR in HJ2.
    destruct (Z.eq_dec L (k ^ J)) as [EL|NL].
    - right. split; [|exact EL]. apply Rmult_le_reg_r with B; [lra|].
      assert (HBh : (/ 2 <= B)%R) by (apply ln_IZR2; exact Hk).
      assert (EA : A = (IZR J * B)%R). { unfold A, B. rewrite <- ln_pw by lra. unfold lam. rewrite pw_IZR by lia. now rewrite EL. }
      rewrite plus_IZR, Rmult_plus_distr_r. lra.
    - left. apply Rmult_le_reg_r with B; [lra|]. unfold B at 2. rewrite <- ln_pw by lra. unfold lam at 1. rewrite pw_IZR by lia.
      pose proof (ln_ratio_lb (IZR L) (IZR (k ^ J)) ltac:(lra) ltac:(apply IZR_lt; lia)) as HR. fold A in HR.
      assert (HLk : (IZR L + 1 <= IZR (k ^ J))%R) by (rewrite <- (plus_IZR L 1); apply IZR_le; lia).
      assert (/ 8796093022209 <= (IZR (k ^ J) - IZR L) / IZR (k ^ J))%R; [|lra].
      apply Rle_trans with (/ (IZR L + 1))%R; [apply Rinv_le_contravar; lra|].
      replace ((IZR (k ^ J) - IZR L) / IZR (k ^ J))%R with (1 - IZR L / IZR (k ^ J))%R by (field; lra).
      replace (/ (IZR L + 1))%R with (1 - IZR L / (IZR L + 1))%R by (field; lra).
      apply Rplus_le_compat_l, Ropp_le_contravar, Rmult_le_compat_l; [lra|]. apply Rinv_le_contravar; lra. }
  assert (HR : Zceil y = J \/ Zceil y = J + 1 /\ L = k ^ J).
  { assert (J <= Zceil y).
    { assert (J - 1 < Zceil y); [|lia]. apply lt_IZR. pose proof (Zceil_ub y). lra. }
    destruct Hup as [H1|[H1 H2]]; apply Zceil_glb in H1; [left; lia|].
    destruct (Z.eq_dec (Zceil y) J); [now left|right; lia]. }
  split; [exact HR|]. apply Rle_trans with (1 := HJ2). apply pw_le; [lra|]. destruct HR as [->|[-> _]]; lia.
Qed.

(*% the computed scale keeps the generating function complete; when it is one too large the added scale is
   redundant: both of its generating rows are identically one, so its filter is zero *)
(*@ C45_extra_scale_is_empty *)
Lemma fp_rows : forall flog L k J n norm l, 1 <= L <= 2 ^ 43 -> 2 <= k <= 2 ^ 1023 ->
  accurate_at flog (IZR L) -> accurate_at flog (IZR k) -> j_max L (IZR k) = Ok J -> 0 <= l < L ->
  k_entry (j_max_fp flog L (IZR k) + 1) l (IZR k) n norm = Ok 1%R /\
  (j_max_fp flog L (IZR k) <> J -> k_entry (j_max_fp flog L (IZR k)) l (IZR k) n norm = Ok 1%R).
Proof.
  intros flog L k J n norm l HL Hk HaL Hal EJ Hl.
  destruct (fp_integer flog L k J HL Hk HaL Hal EJ) as [HJ HC]. set (J' := j_max_fp _ _ _) in *.
  assert (Hl2 : (2 <= IZR k)%R) by (apply (IZR_le 2); lia). assert (Hll : (IZR l < IZR L)%R) by (apply IZR_lt; lia).
  split.
  - unfold k_entry. rewrite pypow_ok by lra. cbn [bind]. replace (J' + 1 - 1) with J' by lia. now rewrite rltb_true by lra.
  - intros HN. destruct HJ as [HJ|[HJ HL']]; [contradiction|]. unfold k_entry. rewrite pypow_ok by lra. cbn [bind].
    replace (J' - 1) with J by lia. rewrite rltb_true; [reflexivity|].
    rewrite pw_IZR by (apply (j_max_nonneg L (IZR k)); auto; [lia|lra]). rewrite <- HL'. assumption.
Qed.

(** ** bounds on log 5 *)
Definition ath6 (x : R) : R := (x + x ^ 3 / 3 + x ^ 5 / 5 + x ^ 7 / 7 + x ^ 9 / 9 + x ^ 11 / 11)%R.
Lemma ath_mono f g x : (0 < x < 1)%R -> f 0%R = 0%R ->
  (forall t, (0 <= t <= x)%R -> is_derive f t (g t) /\ (0 <= g t)%R) -> (0 <= f x)%R.
Proof.
  intros Hx H0 H. destruct (MVT_gen f 0 x g) as (c & Hc & E).
  - intros t Ht. rewrite Rmin_left, Rmax_right in Ht by lra. apply H. lra.
  - intros t Ht. rewrite Rmin_left, Rmax_right in Ht by lra. apply continuity_pt_filterlim.
    apply (ex_derive_continuous f). exists (g t). apply H. lra.
  - rewrite Rmin_left, Rmax_right in Hc by lra. rewrite H0 in E. replace (f x) with (g c * (x - 0))%R by lra.
    apply Rmult_le_pos; [apply H; lra|lra].
Qed.
Lemma ath_bounds x : (0 < x < 1)%R ->
  (ath6 x <= / 2 * (ln (1 + x) - ln (1 - x)) <= ath6 x + x ^ 13 / 13 / (1 - x ^ 2))%R.
Proof.
  intros Hx. split.
  - apply Rminus_le_0.
    apply (ath_mono (fun t => / 2 * (ln (1 + t) - ln (1 - t)) - ath6 t)%R (fun t => t ^ 12 / (1 - t ^ 2))%R); auto.
    + unfold ath6. rewrite Rplus_0_r, Rminus_0_r, ln_1. field.
    + intros t Ht. split; [|apply Rdiv_le_0_compat; [apply pow_le; lra|nra]].
      unfold ath6. auto_derive; [repeat split; lra|]. field. split; nra.
  - apply Rminus_le_0.
    apply (ath_mono (fun t => ath6 t + t ^ 13 / 13 / (1 - x ^ 2) - / 2 * (ln (1 + t) - ln (1 - t)))%R
      (fun t => t ^ 12 * (/ (1 - x ^ 2) - / (1 - t ^ 2)))%R); auto.
    + unfold ath6. rewrite Rplus_0_r, Rminus_0_r, ln_1. field. nra.
    + intros t Ht. split.
      * unfold ath6. auto_derive; [repeat split; lra|]. field. repeat split; nra.
      * apply Rmult_le_pos; [apply pow_le; lra|]. assert (t ^ 2 <= x ^ 2)%R by (apply pow_incr; lra).
        assert (/ (1 - t ^ 2) <= / (1 - x ^ 2))%R; [|lra]. apply Rinv_le_contravar; nra.
Qed.
Lemma ln5_formula : ln 5 = (16 * (ln (1 + / 31) - ln (1 - / 31)) + 12 * (ln (1 + / 49) - ln (1 - / 49))
  + 7 * (ln (1 + / 161) - ln (1 - / 161)))%R.
Proof.
  assert (P : forall a b, (0 < a)%R -> (0 < b)%R -> ln (a / b) = (ln a - ln b)%R) by (intros; now apply ln_div).
  replace (1 + / 31)%R with (2 * 2 * 2 * 2 * 2 / 31)%R by field. replace (1 - / 31)%R with (2 * 3 * 5 / 31)%R by field.
  replace (1 + / 49)%R with (2 * 5 * 5 / 49)%R by field. replace (1 - / 49)%R with (2 * 2 * 2 * 2 * 3 / 49)%R by field.
  replace (1 + / 161)%R with (2 * 3 * 3 * 3 * 3 / 161)%R by field. replace (1 - / 161)%R with (2 * 2 * 2 * 2 * 2 * 5 / 161)%R by field.
  rewrite !P by lra. rewrite !ln_mult by lra. ring.
Qed.
Lemma ln5_bounds : (Rabs (ln 5 * 4503599627370496 - 7248263982714163.418) < / 500)%R.
Proof.
  pose proof (ath_bounds (/ 31) ltac:(lra)) as A. pose proof (ath_bounds (/ 49) ltac:(lra)) as B.
  pose proof (ath_bounds (/ 161) ltac:(lra)) as D. rewrite ln5_formula. unfold ath6 in *.
  apply Rabs_lt. lra.
Qed.

Lemma rnd64_val x e m : (bpow radix2 (e - 1) <= x < bpow radix2 e)%R -> (-1074 <= e - 53) ->
  (Rabs (x * bpow radix2 (53 - e) - IZR m) < / 2)%R -> rnd64 x = (IZR m * bpow radix2 (e - 53))%R.
Proof.
  intros Hx He Hm. unfold rnd64, round.
  assert (Hc : cexp radix2 (FLT_exp (-1074) 53) x = e - 53).
  { unfold cexp. rewrite (mag_unique_pos radix2 x e Hx). unfold FLT_exp. lia. }
  unfold scaled_mantissa. rewrite Hc. replace (- (e - 53)) with (53 - e) by lia.
  rewrite (Znearest_imp _ _ _ Hm). reflexivity.
Qed.

(*% the additional scale does occur: correctly rounded logarithms give 4 scales for L = 125, lam = 5 *)
(*@ C45_extra_scale_occurs *)
Lemma fp_125 : j_max 125 5 = Ok 3 /\ j_max_fp (fun x => rnd64 (ln x)) 125 5 = 4 /\
  accurate_at (fun x => rnd64 (ln x)) 125 /\ accurate_at (fun x => rnd64 (ln x)) 5.
Proof.
  pose proof ln5_bounds as HB. apply Rabs_lt_inv in HB.
  assert (E125 : ln 125 = (3 * ln 5)%R).
  { replace 125%R with (5 * 5 * 5)%R by lra. rewrite !ln_mult by lra. ring. }
  assert (R5 : rnd64 (ln 5) = (IZR 7248263982714163 * bpow radix2 (-52))%R).
  { apply (rnd64_val (ln 5) 1); [cbn; lra|lia|]. cbn. apply Rabs_lt. lra. }
  assert (R125 : rnd64 (ln 125) = (IZR 5436197987035623 * bpow radix2 (-50))%R).
  { rewrite E125. apply (rnd64_val (3 * ln 5) 3); [cbn; lra|lia|]. cbn. apply Rabs_lt. lra. }
  split; [apply j_max_iff; [lia|lra|rewrite !(pw_IZR 5) by lia; split; [apply IZR_lt|apply IZR_le]; cbn; lia]|]. split.
  - unfold j_max_fp. rewrite R125, R5.
    replace (IZR 5436197987035623 * bpow radix2 (-50) / (IZR 7248263982714163 * bpow radix2 (-52)))%R
      with (21744791948142492 / 7248263982714163)%R by (cbn; field).
    rewrite (rnd64_val _ 2 6755399441055745); [|cbn; lra|lia|cbn; apply Rabs_lt; lra].
    unfold rceil. apply Zceil_imp. cbn. lra.
  - unfold accurate_at. rewrite R125, R5, E125. split; apply Rabs_le; cbn; rewrite Rabs_pos_eq by lra; lra.
Qed.

(*@E C45_example *)
Lemma fp_example : accurate_at ln (IZR 125) /\ accurate_at ln 5%R /\ j_max 125 5 = Ok 3.
Proof.
  assert (A : forall x, accurate_at ln x).
  { intros x. unfold accurate_at. replace (ln x - ln x)%R with 0%R by ring. rewrite Rabs_R0.
    apply Rmult_le_pos; [apply bpow_ge_0|apply Rabs_pos]. }
  split; [apply A|]. split; [apply A|]. apply fp_125.
Qed.

(*% ** C46: the quadrature and k_lam *)

Open Scope Z_scope.

Definition nn (x : f64) : Prop := is_nan x = false /\ Bsign x = false.
Definition posf (x : f64) : bool := is_finite_strict x && negb (Bsign x).

Lemma posf_inv x : posf x = true -> exists m e H, x = B754_finite false m e H.
Proof.
  unfold posf. destruct x as [s|s| |s m e H]; cbn; try discriminate. destruct s; [discriminate|]. eauto.
Qed.
Lemma posf_B2R x : posf x = true -> (0 < B2R x)%R.
Proof.
  intros H. apply posf_inv in H as (m & e & H & ->). cbn. apply F2R_gt_0. cbn. lia.
Qed.
Lemma nn_B2R x : nn x -> (0 <= B2R x)%R.
Proof.
  intros [H1 H2]. destruct x as [s|s| |s m e H]; cbn in *; try lra; try discriminate. subst s.
  apply F2R_ge_0. cbn. lia.
Qed.
Lemma nn_cases x : nn x -> x = finf \/ (is_finite x = true /\ (0 <= B2R x)%R).
Proof.
  intros H. pose proof (nn_B2R x H). destruct H as [H1 H2]. destruct x as [s|s| |s m e H']; cbn in *; auto; try discriminate.
  subst. left. reflexivity.
Qed.
Lemma B2SF_inf (z : f64) : B2SF z = SpecFloat.S754_infinity false -> z = finf.
Proof. destruct z; cbn; try discriminate. intros [= ->]. reflexivity. Qed.
Lemma nn_finf : nn finf. Proof. split; reflexivity. Qed.

Lemma nn_fadd x y : nn x -> nn y -> nn (fadd x y).
Proof.
  intros Hx Hy. destruct (nn_cases x Hx) as [->|[Fx Px]].
  { destruct Hy as [H1 H2]. destruct y as [s|s| |s m e H']; cbn in *; subst; try discriminate; split; reflexivity. }
  destruct (nn_cases y Hy) as [->|[Fy Py]].
  { destruct Hx as [H1 H2]. destruct x as [s|s| |s m e H']; cbn in *; subst; try discriminate; split; reflexivity. }
  pose proof (@Bplus_correct 53 1024 gt53 lt53 mode_NE x y Fx Fy) as H. fold (fadd x y) in H.
  destruct (Rlt_bool _ _).
  - destruct H as (_ & H1 & H2). split; [destruct (fadd x y); cbn in *; congruence|]. rewrite H2.
    destruct (Rcompare_spec (B2R x + B2R y) 0); [lra| |reflexivity].
    destruct Hx as [_ ->]. reflexivity.
  - destruct H as [H1 H2]. destruct Hx as [_ Sx]. rewrite Sx in H1. cbn in H1. apply B2SF_inf in H1. rewrite H1. apply nn_finf.
Qed.
Lemma fadd_inf_r x : nn x -> fadd x finf = finf.
Proof. intros [H1 H2]. destruct x as [s|s| |s m e H']; cbn in *; subst; try discriminate; reflexivity. Qed.
Lemma fadd_inf_l x : nn x -> fadd finf x = finf.
Proof. intros [H1 H2]. destruct x as [s|s| |s m e H']; cbn in *; subst; try discriminate; reflexivity. Qed.
Lemma fmul_inf y : posf y = true -> fmul finf y = finf.
Proof. intros H. apply posf_inv in H as (m & e & H & ->). reflexivity. Qed.
Lemma fdiv_inf y : posf y = true -> fdiv finf y = finf.
Proof. intros H. apply posf_inv in H as (m & e & H & ->). reflexivity. Qed.
Lemma nn_fmul x y : nn x -> posf y = true -> nn (fmul x y).
Proof.
  intros Hx Hy. destruct (nn_cases x Hx) as [->|[Fx Px]].
  { rewrite fmul_inf by assumption. apply nn_finf. }
  pose proof (@Bmult_correct 53 1024 gt53 lt53 mode_NE x y) as H. fold (fmul x y) in H.
  assert (Sy : Bsign y = false /\ is_finite y = true) by (apply posf_inv in Hy as (m & e & H' & ->); auto).
  destruct Sy as [Sy Fy]. destruct Hx as [Nx Sx]. rewrite Sx, Sy, Fx, Fy in H.
  destruct (Rlt_bool _ _).
  - destruct H as (_ & H1 & H2). cbn in H1. assert (is_nan (fmul x y) = false) by (destruct (fmul x y); cbn in *; congruence).
    split; auto.
  - cbn in H. apply B2SF_inf in H. rewrite H. apply nn_finf.
Qed.
Lemma nn_fdiv x y : nn x -> posf y = true -> nn (fdiv x y).
Proof.
  intros Hx Hy. destruct (nn_cases x Hx) as [->|[Fx Px]].
  { rewrite fdiv_inf by assumption. apply nn_finf. }
  pose proof (posf_B2R y Hy) as Py.
  pose proof (@Bdiv_correct 53 1024 gt53 lt53 mode_NE x y) as H. fold (fdiv x y) in H. specialize (H ltac:(lra)).
  assert (Sy : Bsign y = false) by (apply posf_inv in Hy as (m & e & H' & ->); auto).
  destruct Hx as [Nx Sx]. rewrite Sx, Sy, Fx in H.
  destruct (Rlt_bool _ _).
  - destruct H as (_ & H1 & H2). assert (is_nan (fdiv x y) = false) by (destruct (fdiv x y); cbn in *; congruence).
    split; auto.
  - cbn in H. apply B2SF_inf in H. rewrite H. apply nn_finf.
Qed.

(** the exponent of the integrand *)
Definition expo (t lam : f64) : res f64 :=
  il <- pydiv (fint 1) lam ;;
  c <- pydiv (fmul (fint 2) lam) (fsub lam (fint 1)) ;;
  let s_arg := fsub (fmul (fsub t il) c) (fint 1) in
  pydiv (fint (-2)) (fsub (fint 1) (fmul s_arg s_arg)).
Lemma integrand_expo fexp t lam :
  tiling_integrand_fp fexp t lam = bind (expo t lam) (fun e => Ok (fdiv (fexp e) t)).
Proof.
  unfold tiling_integrand_fp, expo. destruct (pydiv (fint 1) lam); [|reflexivity]. cbn [bind].
  destruct (pydiv (fmul (fint 2) lam) (fsub lam (fint 1))); reflexivity.
Qed.

Definition absc (a h : f64) (i : Z) : f64 := fadd a (fmul (fint i) h).
Definition okres {A} (p : A -> bool) (r : res A) : bool := match r with Ok x => p x | Err _ => false end.
Definition guard (a h il : f64) (i : Z) : bool := not_end_fp (absc a h i) il && not_end_fp (absc a h (i + 1)) il.
Definition point_ok (p : f64 -> bool) (lam t : f64) : bool := posf t && okres p (expo t lam).
Definition panel_ok (p : f64 -> bool) (a h il lam : f64) (i : Z) : bool :=
  negb (guard a h il i) || (point_ok p lam (absc a h i) && point_ok p lam (absc a h (i + 1))).

Lemma point_ok_inv p lam t : point_ok p lam t = true ->
  posf t = true /\ exists e, expo t lam = Ok e /\ p e = true.
Proof.
  unfold point_ok. rewrite andb_true_iff. intros [H1 H2]. split; auto. destruct (expo t lam); [|discriminate]. eauto.
Qed.

Section OVF.
Variable fexp : f64 -> f64.
Hypothesis fexp_nn : forall x, is_nan x = false -> nn (fexp x).
Hypothesis fexp_ovf : forall x, flt (fint 710) x = true -> fexp x = finf.

Definition pbody a h lam := (fun i sum =>
      il <- pydiv (fint 1) lam ;;
      if not_end_fp (fadd a (fmul (fint i) h)) il && not_end_fp (fadd a (fmul (fint (i + 1)) h)) il then
        f1 <- tiling_integrand_fp fexp (fadd a (fmul (fint i) h)) lam ;;
        f2 <- tiling_integrand_fp fexp (fadd a (fmul (fint (i + 1)) h)) lam ;;
        Ok (fadd sum (fdiv (fmul (fadd f1 f2) h) (fint 2)))
      else Ok sum).

Lemma pydiv_ok x y : feq y (fint 0) = false -> pydiv x y = Ok (fdiv x y).
Proof. intros H. unfold pydiv. now rewrite H. Qed.
Lemma posf2 : posf (fint 2) = true. Proof. vm_compute. reflexivity. Qed.

Lemma point_nn lam t : point_ok (fun e => negb (is_nan e)) lam t = true ->
  exists f, tiling_integrand_fp fexp t lam = Ok f /\ nn f.
Proof.
  intros H. apply point_ok_inv in H as (Ht & e & He & Hn). rewrite negb_true_iff in Hn.
  rewrite integrand_expo, He. cbn [bind]. eexists. split; [reflexivity|]. apply nn_fdiv; auto.
Qed.
Lemma point_ovf lam t : point_ok (flt (fint 710)) lam t = true ->
  tiling_integrand_fp fexp t lam = Ok finf.
Proof.
  intros H. apply point_ok_inv in H as (Ht & e & He & Hn).
  rewrite integrand_expo, He. cbn [bind]. rewrite fexp_ovf by assumption. rewrite fdiv_inf by assumption. reflexivity.
Qed.

Lemma panel_nn a h il lam i sum : pydiv (fint 1) lam = Ok il -> posf h = true ->
  panel_ok (fun e => negb (is_nan e)) a h il lam i = true -> nn sum ->
  exists sum', pbody a h lam i sum = Ok sum' /\ nn sum'.
Proof.
  intros Hil Hh Hp Hs. unfold pbody. rewrite Hil. cbn [bind]. unfold panel_ok, guard, absc in Hp.
  destruct (_ && _); [|eauto]. cbn [negb orb] in Hp. apply andb_true_iff in Hp as [H1 H2].
  apply point_nn in H1 as (f1 & -> & N1). apply point_nn in H2 as (f2 & -> & N2). cbn [bind].
  eexists. split; [reflexivity|]. apply nn_fadd; auto. apply nn_fdiv; [|apply posf2]. apply nn_fmul; auto. apply nn_fadd; auto.
Qed.

Lemma panel_ovf a h il lam i sum : pydiv (fint 1) lam = Ok il -> posf h = true ->
  guard a h il i = true -> point_ok (fun e => negb (is_nan e)) lam (absc a h i) = true ->
  point_ok (flt (fint 710)) lam (absc a h (i + 1)) = true -> nn sum ->
  pbody a h lam i sum = Ok finf.
Proof.
  intros Hil Hh Hg H1 H2 Hs. unfold pbody. rewrite Hil. cbn [bind]. unfold guard, absc in *. rewrite Hg.
  apply point_nn in H1 as (f1 & -> & N1). apply point_ovf in H2 as ->. cbn [bind].
  rewrite fadd_inf_r, fmul_inf, fdiv_inf, fadd_inf_r by auto using posf2. reflexivity.
Qed.

Lemma panels_nn a h il lam l sum : pydiv (fint 1) lam = Ok il -> posf h = true ->
  forallb (panel_ok (fun e => negb (is_nan e)) a h il lam) l = true -> nn sum ->
  exists sum', for_ l sum (pbody a h lam) = Ok sum' /\ nn sum'.
Proof.
  intros Hil Hh. revert sum. induction l as [|i l IH]; intros sum Hp Hs; [cbn; eauto|].
  cbn [forallb] in Hp. apply andb_true_iff in Hp as [H1 H2]. cbn [for_].
  destruct (panel_nn a h il lam i sum Hil Hh H1 Hs) as (s1 & -> & N1). cbn [bind]. apply IH; auto.
Qed.

Lemma overshoot a b n lam h il :
  pydiv (fsub b a) (fint (n + 1)) = Ok h -> pydiv (fint 1) lam = Ok il -> posf h = true -> feq a b = false -> 0 <= n ->
  forallb (panel_ok (fun e => negb (is_nan e)) a h il lam) (zrange 0 n) = true ->
  guard a h il n = true -> point_ok (fun e => negb (is_nan e)) lam (absc a h n) = true ->
  point_ok (flt (fint 710)) lam (absc a h (n + 1)) = true ->
  part_scaling_fn_fp fexp a b (n + 1) lam = Ok finf.
Proof.
  intros Hh Hil Ph Hab Hn Hp Hg H1 H2. unfold part_scaling_fn_fp. rewrite Hh. cbn [bind]. rewrite Hab.
  change (for_ (zrange 0 (n + 1)) (fint 0) (pbody a h lam) = Ok finf).
  rewrite zrange_snoc by lia. rewrite for_app.
  destruct (panels_nn a h il lam (zrange 0 n) (fint 0) Hil Ph Hp) as (s & -> & Ns); [split; reflexivity|].
  cbn [bind for_]. rewrite (panel_ovf a h il lam n s) by assumption. reflexivity.
Qed.

Lemma norm_five : part_scaling_fn_fp fexp (fdiv (fint 1) (fint 5)) (fint 1) 300 (fint 5) = Ok finf.
Proof.
  apply (overshoot _ _ 299 _ (fdiv (fsub (fint 1) (fdiv (fint 1) (fint 5))) (fint 300)) (fdiv (fint 1) (fint 5))).
  - apply pydiv_ok. vm_compute. reflexivity.
  - apply pydiv_ok. vm_compute. reflexivity.
  - vm_compute. reflexivity.
  - vm_compute. reflexivity.
  - lia.
  - vm_compute. reflexivity.
  - vm_compute. reflexivity.
  - vm_compute. reflexivity.
  - vm_compute. reflexivity.
Qed.
End OVF.

Opaque fint fdiv fadd fmul fsub feq flt.
(** what is left of a quotient by +inf *)
Definition degenerate (x : f64) : Prop := x = fint 1 \/ feq x (fint 0) = true \/ is_nan x = true.

Lemma fdiv_by_inf q : degenerate (fdiv q finf).
Proof. destruct q; cbn; unfold degenerate; auto. Qed.

Lemma k_entry_five fexp fpow j l lam n v : k_entry_fp fexp fpow j l lam n finf = Ok v -> degenerate v.
Proof.
  unfold k_entry_fp. destruct (flt _ _); [intros [= <-]; left; reflexivity|].
  destruct (flt _ _); [intros [= <-]; right; left; reflexivity|].
  intros H. apply bind_inv in H as (a & _ & H). apply bind_inv in H as (q & _ & H). apply Ok_inj in H as <-. apply fdiv_by_inf.
Qed.

(*% the normalisation at scale base 5 is +inf, so no entry of k_lam lies strictly between 0 and 1 *)
(*@ C46_base_five_degenerate *)
Lemma fp_five : forall (fexp : f64 -> f64) fpow J L k,
  (forall x, is_nan x = false -> is_nan (fexp x) = false /\ Bsign (fexp x) = false) ->
  (forall x, flt (fint 710) x = true -> fexp x = finf) ->
  k_lam_fp fexp fpow J L (fint 5) 300 = Ok k ->
  rows k = J + 2 /\ cols k = L /\
  forall j l, 0 <= j < J + 2 -> 0 <= l < L ->
    get2 k j l = fint 1 \/ feq (get2 k j l) (fint 0) = true \/ is_nan (get2 k j l) = true.
Proof.
  intros fexp fpow J L k H1 H2 H. unfold k_lam_fp in H. rewrite pydiv_ok in H by (vm_compute; reflexivity). cbn [bind] in H.
  rewrite norm_five in H by assumption. cbn [bind] in H.
  unfold zeros2 in H. destruct ((0 <=? J + 2) && (0 <=? L)) eqn:E; [|discriminate].
  apply andb_true_iff in E as [E1%Z.leb_le E2%Z.leb_le]. cbn [bind] in H.
  set (P := fun k : arr2 f64 => rows k = J + 2 /\ cols k = L /\ forall j l, degenerate (get2 k j l)).
  cut (P k). { intros (A & B & C). split; [|split]; auto. intros; apply C. }
  assert (Z0 : degenerate (fint 0)) by (right; left; reflexivity).
  refine (for_inv (fun _ => P) 0 (J + 2) _ _ k _ _ _ H); [lia| |].
  - split; [|split]; try reflexivity. intros j l. cbn [get2 mk2]. destruct (_ && _); apply Z0.
  - intros j a b Hj HP Hb. refine (for_inv (fun _ => P) 0 L _ _ b _ HP _ Hb); [lia|].
    intros l a' b' Hl (A & B & C) Hb'. apply bind_inv in Hb' as (v & Hv & Hb').
    apply k_entry_five in Hv. unfold wr2 in Hb'. apply bind_inv in Hb' as (i' & _ & Hb').
    apply bind_inv in Hb' as (j' & _ & Hb'). apply Ok_inj in Hb' as <-. split; [|split]; auto.
    intros p q. cbn [get2 mk2]. destruct (_ && _); [|apply Z0]. destruct (_ && _); auto.
Qed.

(*% The same quadrature at scale base 10 fails on l = 11, j = 2: the last
    abscissa is so close to 1 that 1 - s^2 is 0, but it is not 1. *)

Lemma pydiv_cases x y : (exists z, pydiv x y = Ok z) \/ pydiv x y = Err ZeroDivisionError.
Proof. unfold pydiv. destruct (feq _ _); eauto. Qed.
Lemma integrand_cases fexp t lam :
  (exists z, tiling_integrand_fp fexp t lam = Ok z) \/ tiling_integrand_fp fexp t lam = Err ZeroDivisionError.
Proof.
  unfold tiling_integrand_fp.
  destruct (pydiv_cases (fint 1) lam) as [(il & ->)| ->]; [|auto]. cbn [bind].
  destruct (pydiv_cases (fmul (fint 2) lam) (fsub lam (fint 1))) as [(c & ->)| ->]; [|auto]. cbn [bind].
  match goal with |- context [pydiv ?a ?b] => destruct (pydiv_cases a b) as [(e & ->)| ->] end; [|auto]. cbn [bind]. eauto.
Qed.
Lemma pbody_cases fexp a h lam i s :
  (exists z, pbody fexp a h lam i s = Ok z) \/ pbody fexp a h lam i s = Err ZeroDivisionError.
Proof.
  unfold pbody. destruct (pydiv_cases (fint 1) lam) as [(il & ->)| ->]; [|auto]. cbn [bind].
  destruct (_ && _); [|eauto].
  destruct (integrand_cases fexp (fadd a (fmul (fint i) h)) lam) as [(z & ->)| ->]; [|auto]. cbn [bind].
  destruct (integrand_cases fexp (fadd a (fmul (fint (i + 1)) h)) lam) as [(z' & ->)| ->]; [|auto]. cbn [bind]. eauto.
Qed.
Lemma part_cases fexp a b n lam :
  (exists z, part_scaling_fn_fp fexp a b n lam = Ok z) \/ part_scaling_fn_fp fexp a b n lam = Err ZeroDivisionError.
Proof.
  unfold part_scaling_fn_fp.
  destruct (pydiv_cases (fsub b a) (fint n)) as [(h & ->)| ->]; [|auto]. cbn [bind].
  destruct (feq a b); [eauto|].
  change ((exists z, for_ (zrange 0 n) (fint 0) (pbody fexp a h lam) = Ok z) \/ for_ (zrange 0 n) (fint 0) (pbody fexp a h lam) = Err ZeroDivisionError).
  generalize (fint 0). induction (zrange 0 n) as [|i l IH]; intros s; [cbn; eauto|]. cbn [for_].
  destruct (pbody_cases fexp a h lam i s) as [(z & ->)| ->]; [|auto]. cbn [bind]. apply IH.
Qed.
Lemma k_entry_cases fexp fpow j l lam n c :
  (exists z, k_entry_fp fexp fpow j l lam n c = Ok z) \/ k_entry_fp fexp fpow j l lam n c = Err ZeroDivisionError.
Proof.
  unfold k_entry_fp. destruct (flt _ _); [eauto|]. destruct (flt _ _); [eauto|].
  destruct (pydiv_cases (fint l) (fpow lam j)) as [(a & ->)| ->]; [|auto]. cbn [bind].
  destruct (part_cases fexp a (fint 1) n lam) as [(q & ->)| ->]; [|auto]. cbn [bind]. eauto.
Qed.

Definition zdiv {A} (r : res A) : bool := match r with Err ZeroDivisionError => true | _ => false end.
Lemma zdiv_inv {A} (r : res A) : zdiv r = true -> r = Err ZeroDivisionError.
Proof. destruct r as [|[]]; try discriminate. reflexivity. Qed.

Lemma part_ten fexp : part_scaling_fn_fp fexp (fdiv (fint 11) (fint 100)) (fint 1) 300 (fint 10) = Err ZeroDivisionError.
Proof.
  unfold part_scaling_fn_fp.
  set (a := fdiv (fint 11) (fint 100)). set (h := fdiv (fsub (fint 1) a) (fint 300)).
  rewrite (pydiv_ok (fsub (fint 1) a)) by (vm_compute; reflexivity). fold h. cbn [bind].
  replace (feq a (fint 1)) with false by (vm_compute; reflexivity).
  change (for_ (zrange 0 300) (fint 0) (pbody fexp a h (fint 10)) = Err ZeroDivisionError).
  apply (for_err_only (fun _ => True) ZeroDivisionError 0 299 300); [lia|exact I| |].
  - intros i s _ _. destruct (pbody_cases fexp a h (fint 10) i s) as [(z & ->)| ->]; eauto.
  - intros s _. unfold pbody. rewrite (pydiv_ok (fint 1) (fint 10)) by (vm_compute; reflexivity). cbn [bind].
    set (il := fdiv (fint 1) (fint 10)).
    change (not_end_fp _ _ && not_end_fp _ _) with (guard a h il 299).
    replace (guard a h il 299) with true by (vm_compute; reflexivity).
    destruct (integrand_cases fexp (fadd a (fmul (fint 299) h)) (fint 10)) as [(z & ->)| ->]; [|reflexivity]. cbn [bind].
    rewrite integrand_expo. rewrite (zdiv_inv (expo (fadd a (fmul (fint (299 + 1)) h)) (fint 10))); [reflexivity|].
    vm_compute. reflexivity.
Qed.

(*@ C46_base_ten_fails *)
Lemma fp_ten : forall fexp fpow J L,
  fpow (fint 10) 1 = fint 10 -> fpow (fint 10) 2 = fint 100 -> 12 <= L -> 1 <= J ->
  k_lam_fp fexp fpow J L (fint 10) 300 = Err ZeroDivisionError.
Proof.
  intros fexp fpow J L P1 P2 HL HJ. unfold k_lam_fp. rewrite pydiv_ok by (vm_compute; reflexivity). cbn [bind].
  match goal with |- bind ?r _ = _ => destruct (part_cases fexp (fdiv (fint 1) (fint 10)) (fint 1) 300 (fint 10)) as [(c & ->)| ->] end;
    [|reflexivity]. cbn [bind]. rewrite zeros2_ok by lia. cbn [bind].
  set (P := fun k : arr2 f64 => rows k = J + 2 /\ cols k = L).
  assert (HW : forall j l k, 0 <= j < J + 2 -> 0 <= l < L -> P k ->
     let r := bind (k_entry_fp fexp fpow j l (fint 10) 300 c) (fun v => wr2 k j l v) in
     (exists b, r = Ok b /\ P b) \/ r = Err ZeroDivisionError).
  { intros j l k Hj Hl [A B]. destruct (k_entry_cases fexp fpow j l (fint 10) 300 c) as [(v & ->)| ->]; [|right; reflexivity].
    cbn [bind]. left. rewrite wr2_ok by lia. eexists. split; [reflexivity|]. split; assumption. }
  apply (for_err_only P ZeroDivisionError 0 2 (J + 2)); [lia|split; reflexivity| |].
  - intros j k Hj HP.
    assert (HI : forall ls s, (forall l, In l ls -> 0 <= l < L) -> P s ->
      let r := for_ ls s (fun l k => bind (k_entry_fp fexp fpow j l (fint 10) 300 c) (fun v => wr2 k j l v)) in
      (exists b, r = Ok b /\ P b) \/ r = Err ZeroDivisionError).
    { induction ls as [|l ls IH]; intros s Hin Hs; [left; cbn; eauto|]. cbn [for_].
      destruct (HW j l s Hj (Hin l (or_introl eq_refl)) Hs) as [(b & -> & Pb)| ->]; [|right; reflexivity].
      cbn [bind]. apply IH; auto. intros l' Hl'. apply Hin. right; auto. }
    apply HI; auto. intros l Hl. apply In_zrange in Hl. lia.
  - intros k HP. apply (for_err_only P ZeroDivisionError 0 11 L); [lia|exact HP| |].
    + intros l a Hl Ha. apply HW; auto. lia.
    + intros a Ha. unfold k_entry_fp. change (2 - 1) with 1. rewrite P1, P2.
      replace (flt (fint 11) (fint 10)) with false by (vm_compute; reflexivity).
      replace (flt (fint 100) (fint 11)) with false by (vm_compute; reflexivity).
      rewrite pydiv_ok by (vm_compute; reflexivity). cbn [bind]. rewrite part_ten. reflexivity.
Qed.

(*% With the default base 2, and with 3 and 4, all abscissae stay inside and the
    normalisation is finite. *)

(** a finite number between 0 and k *)
Definition fb (k : Z) (x : f64) : Prop := is_finite x = true /\ (0 <= B2R x <= IZR k)%R.

Lemma format_int k : Z.abs k <= 2 ^ 53 -> generic_format radix2 (SpecFloat.fexp 53 1024) (IZR k).
Proof.
  intros Hk. change (SpecFloat.fexp 53 1024) with (FLT_exp (SpecFloat.emin 53 1024) 53).
  destruct (Z.eq_dec (Z.abs k) (2 ^ 53)) as [E|E].
  - assert (E' : k = 2 ^ 53 \/ k = - 2 ^ 53) by lia.
    assert (G : generic_format radix2 (FLT_exp (SpecFloat.emin 53 1024) 53) (IZR (2 ^ 53))).
    { change (2 ^ 53) with (Zpower radix2 53). rewrite IZR_Zpower by lia. apply generic_format_bpow. vm_compute. discriminate. }
    destruct E' as [-> | ->]; [exact G|]. rewrite opp_IZR. apply generic_format_opp. exact G.
  - apply generic_format_FLT. apply (FLT_spec _ _ _ _ (Float radix2 k 0)).
    + unfold F2R. cbn. lra.
    + cbn [Fnum]. change (Zpower radix2 53) with (2 ^ 53). lia.
    + vm_compute. discriminate.
Qed.

Lemma rnd_int k x : 0 <= k <= 2 ^ 53 -> (0 <= x <= IZR k)%R ->
  let r := round radix2 (SpecFloat.fexp 53 1024) (round_mode mode_NE) x in
  (0 <= r <= IZR k)%R /\ Rlt_bool (Rabs r) (bpow radix2 1024) = true.
Proof.
  intros Hk Hx r. assert (V : Valid_exp (SpecFloat.fexp 53 1024)) by (apply (@fexp_correct 53 1024 gt53)).
  assert (H0 : (0 <= r)%R).
  { unfold r. apply round_ge_generic; try typeclasses eauto; [|lra]. apply (format_int 0). lia. }
  assert (H1 : (r <= IZR k)%R).
  { unfold r. apply round_le_generic; try typeclasses eauto; [|lra]. apply (format_int k). lia. }
  split; [split; assumption|]. apply Rlt_bool_true. rewrite Rabs_pos_eq by assumption.
  apply Rle_lt_trans with (IZR (2 ^ 53)).
  - apply Rle_trans with (1 := H1). apply IZR_le. lia.
  - change (2 ^ 53) with (Zpower radix2 53). rewrite IZR_Zpower by lia. apply bpow_lt. lia.
Qed.

Lemma fb_fadd a b x y : a + b <= 2 ^ 53 -> fb a x -> fb b y -> fb (a + b) (fadd x y).
Proof.
  intros Hk [Fx Bx] [Fy By].
  assert (Hab : 0 <= a + b) by (apply le_IZR; rewrite plus_IZR; lra).
  pose proof (@Bplus_correct 53 1024 gt53 lt53 mode_NE x y Fx Fy) as H. change (Bplus mode_NE x y) with (fadd x y) in H.
  destruct (rnd_int (a + b) (B2R x + B2R y) ltac:(lia) ltac:(rewrite plus_IZR; lra)) as [R1 R2].
  rewrite R2 in H. destruct H as (E & F & _). split; [exact F|]. rewrite E. exact R1.
Qed.
Lemma fb_fmul a x y : 0 <= a <= 2 ^ 53 -> fb a x -> is_finite y = true -> (0 <= B2R y <= 1)%R -> fb a (fmul x y).
Proof.
  intros Hk [Fx Bx] Fy By.
  pose proof (@Bmult_correct 53 1024 gt53 lt53 mode_NE x y) as H. change (Bmult mode_NE x y) with (fmul x y) in H.
  destruct (rnd_int a (B2R x * B2R y) ltac:(lia) ltac:(split; nra)) as [R1 R2].
  rewrite R2 in H. destruct H as (E & F & _). rewrite Fx, Fy in F. split; [exact F|]. rewrite E. exact R1.
Qed.
Lemma fb_fdiv a b x y : 0 <= a -> 0 < b -> a * b <= 2 ^ 53 -> fb a x -> (/ IZR b <= B2R y)%R -> fb (a * b) (fdiv x y).
Proof.
  intros Ha Hb Hk [Fx Bx] By. assert (Hb' : (0 < IZR b)%R) by (apply (IZR_lt 0); lia).
  assert (Hy : (0 < B2R y)%R) by (apply Rlt_le_trans with (2 := By); apply Rinv_0_lt_compat; lra).
  pose proof (@Bdiv_correct 53 1024 gt53 lt53 mode_NE x y ltac:(lra)) as H. change (Bdiv mode_NE x y) with (fdiv x y) in H.
  assert (Hi : (0 < / B2R y <= IZR b)%R).
  { split; [apply Rinv_0_lt_compat; lra|]. rewrite <- (Rinv_inv (IZR b)).
    apply Rinv_le_contravar; [apply Rinv_0_lt_compat; lra|lra]. }
  destruct (rnd_int (a * b) (B2R x / B2R y) ltac:(lia)) as [R1 R2].
  { unfold Rdiv. rewrite mult_IZR. split; [apply Rmult_le_pos; lra|]. apply Rmult_le_compat; lra. }
  rewrite R2 in H. destruct H as (E & F & _). rewrite Fx in F. split; [exact F|]. rewrite E. exact R1.
Qed.

(** b * t >= 1 for the abscissa t, decided exactly *)
Definition ge_inv (b : Z) (t : f64) : bool := posf t && negb (flt t (fdiv (fint 1) (fint b))).
Lemma ge_inv_pow t : ge_inv 1024 t = true -> (/ IZR 1024 <= B2R t)%R.
Proof.
  unfold ge_inv. rewrite andb_true_iff, negb_true_iff. intros [H1 H2].
  apply posf_inv in H1 as (m & e & H & E).
  assert (Ft : is_finite t = true) by (subst; reflexivity).
  change (flt t (fdiv (fint 1) (fint 1024))) with (Bltb t (fdiv (fint 1) (fint 1024))) in H2.
  rewrite Bltb_correct in H2; [|exact Ft|vm_compute; reflexivity].
  destruct (Rlt_bool_spec (B2R t) (B2R (fdiv (fint 1) (fint 1024)))) as [|G]; [discriminate|].
  replace (/ IZR 1024)%R with (B2R (fdiv (fint 1) (fint 1024))); [exact G|].
  assert (EF : B2SF (fdiv (fint 1) (fint 1024)) = SpecFloat.S754_finite false 4503599627370496 (-62)) by (vm_compute; reflexivity).
  destruct (fdiv (fint 1) (fint 1024)) as [| | |s' m' e' H']; try discriminate. cbn in EF. injection EF as -> -> ->.
  cbn [B2R]. unfold F2R. cbn. lra.
Qed.

Section FIN.
Variable fexp : f64 -> f64.
Hypothesis fexp_neg : forall x, flt x (fint 0) = true -> fb 1 (fexp x).

Definition inner (lam t : f64) : bool := ge_inv 1024 t && okres (fun e => flt e (fint 0)) (expo t lam).
Definition panel_in (a h il lam : f64) (i : Z) : bool :=
  negb (guard a h il i) || (inner lam (absc a h i) && inner lam (absc a h (i + 1))).

Lemma inner_fb lam t : inner lam t = true -> exists f, tiling_integrand_fp fexp t lam = Ok f /\ fb 1024 f.
Proof.
  unfold inner. rewrite andb_true_iff. intros [H1 H2]. rewrite integrand_expo.
  destruct (expo t lam) as [e|]; [|discriminate]. cbn [bind]. eexists. split; [reflexivity|].
  change 1024 with (1 * 1024). apply fb_fdiv; try lia; [apply fexp_neg; exact H2|apply ge_inv_pow; exact H1].
Qed.

Lemma panels_in a h il lam l : forall c sum, pydiv (fint 1) lam = Ok il ->
  is_finite h = true -> (0 <= B2R h <= 1)%R ->
  forallb (panel_in a h il lam) l = true -> 0 <= c ->
  c + 4096 * Z.of_nat (length l) <= 2 ^ 53 -> fb c sum ->
  exists sum', for_ l sum (pbody fexp a h lam) = Ok sum' /\ fb (c + 4096 * Z.of_nat (length l)) sum'.
Proof.
  induction l as [|i l IH]; intros c sum Hil Fh Bh Hp Hc Hk Hs.
  { cbn [for_ length]. eexists. split; [reflexivity|]. replace (c + 4096 * Z.of_nat 0) with c by lia. exact Hs. }
  cbn [forallb] in Hp. apply andb_true_iff in Hp as [H1 H2]. cbn [for_].
  rewrite (ltac:(cbn [length]; lia) : c + 4096 * Z.of_nat (length (i :: l)) = c + 4096 + 4096 * Z.of_nat (length l)) in Hk |- *.
  assert (HB : exists s1, pbody fexp a h lam i sum = Ok s1 /\ fb (c + 4096) s1).
  { unfold pbody. rewrite Hil. cbn [bind]. unfold panel_in, guard, absc in H1. destruct (_ && _).
    - cbn [negb orb] in H1. apply andb_true_iff in H1 as [I1 I2].
      apply inner_fb in I1 as (f1 & -> & B1). apply inner_fb in I2 as (f2 & -> & B2). cbn [bind].
      eexists. split; [reflexivity|]. apply fb_fadd; [lia|exact Hs|]. change 4096 with ((1024 + 1024) * 2).
      apply fb_fdiv; try lia; [|].
      + apply fb_fmul; auto; [lia|]. apply fb_fadd; auto. lia.
      + assert (EF : B2SF (fint 2) = SpecFloat.S754_finite false 4503599627370496 (-51)) by (vm_compute; reflexivity).
        destruct (fint 2) as [| | |s' m' e' H']; try discriminate. cbn in EF. injection EF as -> -> ->.
        cbn [B2R]. unfold F2R. cbn. lra.
    - eexists. split; [reflexivity|]. destruct Hs as [A B]. split; [exact A|]. rewrite plus_IZR. lra. }
  destruct HB as (s1 & -> & B1). cbn [bind]. apply IH; auto; lia.
Qed.

Lemma inside a b n lam h il :
  pydiv (fsub b a) (fint n) = Ok h -> pydiv (fint 1) lam = Ok il ->
  posf h = true -> flt (fint 1) h = false ->
  0 <= n <= 2 ^ 40 ->
  forallb (panel_in a h il lam) (zrange 0 n) = true ->
  exists v, part_scaling_fn_fp fexp a b n lam = Ok v /\ is_finite v = true /\ (0 <= B2R v)%R.
Proof.
  intros Hh Hil Ph Bh Hn Hp. unfold part_scaling_fn_fp. rewrite Hh. cbn [bind].
  assert (F0 : fb 0 (fint 0)).
  { assert (EF : B2SF (fint 0) = SpecFloat.S754_zero false) by (vm_compute; reflexivity).
    destruct (fint 0); try discriminate. split; [reflexivity|]. cbn. lra. }
  destruct (feq a b). { exists (fint 0). destruct F0. split; [reflexivity|]. split; [assumption|lra]. }
  assert (Fh : is_finite h = true) by (apply posf_inv in Ph as (m & e & H & ->); reflexivity).
  assert (Bh' : (0 <= B2R h <= 1)%R).
  { split; [apply Rlt_le, posf_B2R, Ph|]. change (flt (fint 1) h) with (Bltb (fint 1) h) in Bh.
    assert (EF : B2SF (fint 1) = SpecFloat.S754_finite false 4503599627370496 (-52)) by (vm_compute; reflexivity).
    rewrite Bltb_correct in Bh; [|vm_compute; reflexivity|exact Fh].
    destruct (fint 1) as [| | |s' m' e' H']; try discriminate. cbn in EF. injection EF as -> -> ->.
    cbn [B2R] in Bh. unfold F2R in Bh. cbn in Bh.
    match type of Bh with Rlt_bool ?u ?v = false => destruct (Rlt_bool_spec u v) as [|G]; [discriminate|] end. lra. }
  destruct (panels_in a h il lam (zrange 0 n) 0 (fint 0) Hil Fh Bh' Hp) as (v & E & V1 & V2); try lia; auto.
  - rewrite zrange_length. lia.
  - exists v. split; [exact E|]. split; [exact V1|lra].
Qed.
End FIN.

(*@ C46_small_bases_finite *)
Lemma fp_small : forall (fexp : f64 -> f64) lam,
  (forall x, flt x (fint 0) = true -> is_finite (fexp x) = true /\ (0 <= B2R (fexp x) <= 1)%R) ->
  In lam [2; 3; 4] ->
  exists v, part_scaling_fn_fp fexp (fdiv (fint 1) (fint lam)) (fint 1) 300 (fint lam) = Ok v /\
    is_finite v = true /\ (0 <= B2R v)%R.
Proof.
  intros fexp lam H Hl. cbn [In] in Hl.
  assert (A : forall x y, feq y (fint 0) = false -> pydiv x y = Ok (fdiv x y)) by exact pydiv_ok.
  destruct Hl as [<-|[<-|[<-|[]]]];
  (eapply (inside fexp); [exact H| apply A; vm_compute; reflexivity | apply A; vm_compute; reflexivity
    |vm_compute; reflexivity|vm_compute; reflexivity|lia|vm_compute; reflexivity]).
Qed.

(** an exp meeting the hypotheses, and the powers of the base *)
Definition toy_exp (x : f64) : f64 :=
  if flt (fint 710) x then finf else if flt x (fint 0) then fdiv (fint 1) (fint 2) else fint 1.
Definition toy_pow (lam : f64) (j : Z) : f64 :=
  if j <? 0 then fdiv (fint 1) lam else Z.iter j (fun p => fmul p lam) (fint 1).

Lemma toy_exp_ok : (forall x, is_nan x = false -> is_nan (toy_exp x) = false /\ Bsign (toy_exp x) = false) /\
  (forall x, flt (fint 710) x = true -> toy_exp x = finf) /\
  (forall x, flt x (fint 0) = true -> is_finite (toy_exp x) = true /\ (0 <= B2R (toy_exp x) <= 1)%R).
Proof.
  split; [|split].
  - intros x _. unfold toy_exp. destruct (flt _ x); [split; reflexivity|]. destruct (flt x _); split; vm_compute; reflexivity.
  - intros x H. unfold toy_exp. now rewrite H.
  - intros x H. unfold toy_exp. replace (flt (fint 710) x) with false.
    + rewrite H. assert (EF : B2SF (fdiv (fint 1) (fint 2)) = SpecFloat.S754_finite false 4503599627370496 (-53)) by (vm_compute; reflexivity).
      destruct (fdiv (fint 1) (fint 2)) as [| | |s' m' e' H']; try discriminate. cbn in EF. injection EF as -> -> ->.
      split; [reflexivity|]. cbn [B2R]. unfold F2R. cbn. lra.
    + symmetry. change (Bltb x (fint 0) = true) in H. change (Bltb (fint 710) x = false).
      destruct (is_finite x) eqn:F.
      * rewrite Bltb_correct in H |- *; auto.
        assert (E0 : B2R (fint 0) = 0%R) by (assert (EF : B2SF (fint 0) = SpecFloat.S754_zero false) by (vm_compute; reflexivity);
          destruct (fint 0); try discriminate; reflexivity).
        assert (E7 : (0 < B2R (fint 710))%R) by (apply posf_B2R; vm_compute; reflexivity).
        destruct (Rlt_bool_spec (B2R x) (B2R (fint 0))); [|discriminate]. apply Rlt_bool_false. lra.
      * destruct x as [|s| |]; try discriminate. destruct s; vm_compute in H |- *; congruence.
Qed.

(*@E C46_base_five_example *)
Lemma fp_five_example : exists fexp fpow k,
  (forall x, is_nan x = false -> is_nan (fexp x) = false /\ Bsign (fexp x) = false) /\
  (forall x, flt (fint 710) x = true -> fexp x = finf) /\
  k_lam_fp fexp fpow 0 2 (fint 5) 300 = Ok k /\ is_nan (get2 k 1 1) = true.
Proof.
  assert (E : okres (fun k => is_nan (get2 k 1 1)) (k_lam_fp toy_exp toy_pow 0 2 (fint 5) 300) = true) by (vm_compute; reflexivity).
  destruct (k_lam_fp toy_exp toy_pow 0 2 (fint 5) 300) as [k|] eqn:K; [|discriminate].
  exists toy_exp, toy_pow, k. destruct toy_exp_ok as (A & B & _). auto.
Qed.

(*@E C46_base_ten_example *)
Lemma fp_ten_example : exists fpow : f64 -> Z -> f64, fpow (fint 10) 1 = fint 10 /\ fpow (fint 10) 2 = fint 100.
Proof.
  exists toy_pow. split; apply B2SF_inj; vm_compute; reflexivity.
Qed.

(*@E C46_small_bases_example *)
Lemma fp_small_example : exists fexp : f64 -> f64, forall x, flt x (fint 0) = true ->
  is_finite (fexp x) = true /\ (0 <= B2R (fexp x) <= 1)%R.
Proof. exists toy_exp. apply toy_exp_ok. Qed.
