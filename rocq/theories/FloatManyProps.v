(** Statements and proofs for PropertiesFloatMany.v *)

From Coq Require Import ZArith Reals List Bool Lia Lra Psatz Factorial.
From Coquelicot Require Import Rcomplements Complex.
From Flocq Require Import Core Relative IEEE754.BinarySingleNaN.
From Verif Require Import Py PyFacts ModelSamples SamplesFacts SamplesProps ModelFilters FiltersFacts DirectionFacts DirFilterFacts Spec SpecQuad FiltersProps.
From Verif Require Import ModelFloat ModelFloatDir FloatProps SpecFp SpecFpDir SpecFpMany FloatFacts FloatFilterProps FloatDefault FloatAccProps FloatDirFacts FloatDirProps FloatDirFilterProps.
Import ListNotations.
Open Scope Z_scope.

(*T Many directions in binary64 *)
(*! From Coq Require Import ZArith Reals List Bool. *)
(*! From Coquelicot Require Import Complex. *)
(*! From Flocq Require Import Core IEEE754.BinarySingleNaN. *)
(*! Import ListNotations. *)
(*! From Verif Require Import Py ModelSamples ModelFilters ModelFloat ModelFloatDir Spec SpecQuad SpecFp SpecFpDir SpecFpMany. *)

#[local] Existing Instance gt53.
#[local] Instance vexp : Valid_exp (SpecFloat.fexp 53 1024). Proof. exact (@fexp_correct 53 1024 gt53). Qed.

Lemma ln1024 : (ln 1024 <= 8)%R.
Proof.
  rewrite <- (ln_exp 8). apply ln_le; [lra|].
  assert (E : exp 8 = (exp (/ 8) ^ 64)%R). { rewrite <- exp_npow. f_equal. rewrite INR_IZR_INZ. change (Z.of_nat 64) with 64. lra. }
  assert (H : ((9 / 8) ^ 64 <= exp (/ 8) ^ 64)%R). { apply pow_incr. pose proof (exp_ineq1_le (/ 8)). lra. }
  rewrite E. lra.
Qed.
Lemma ln_fact_many n : (n <= 1023)%nat -> (0 <= ln (INR (fact n)) <= 8184)%R.
Proof.
  intros Hn.
  assert (H : forall m, (m <= 1023)%nat -> (0 <= ln (INR (fact m)) <= INR m * 8)%R).
  { induction m as [|m IH]; intros Hm.
    - cbn. rewrite ln_1. lra.
    - rewrite fact_simpl, mult_INR, ln_mult; [|apply lt_0_INR; lia|apply fact_posR]. specialize (IH ltac:(lia)).
      assert (0 <= ln (INR (S m)) <= 8)%R; [|rewrite S_INR in *; lra]. split.
      + rewrite <- ln_1. apply ln_le; [lra|]. replace 1%R with (INR 1) by reflexivity. apply le_INR. lia.
      + apply Rle_trans with (2 := ln1024). apply ln_le; [apply lt_0_INR; lia|]. rewrite INR_IZR_INZ. apply IZR_le. lia. }
  specialize (H n Hn). assert (INR n <= 1023)%R by (rewrite INR_IZR_INZ; apply IZR_le; lia). lra.
Qed.
Lemma exp_dbl x q q' : (0 <= q)%R -> (q <= exp x)%R -> (q' <= q * q)%R -> (q' <= exp (2 * x))%R.
Proof. intros H0 H1 H2. replace (2 * x)%R with (x + x)%R by ring. rewrite exp_plus. apply Rle_trans with (1 := H2). apply Rmult_le_compat; lra. Qed.
Lemma ln2_up : (ln 2 <= 693352 / 1000000)%R.
Proof.
  rewrite <- (ln_exp (693352 / 1000000)). apply ln_le; [lra|]. set (x := (693352 / 1000000 / 2048)%R).
  assert (E0 : ((10003385507812500 / 10000000000000000) <= exp x)%R) by (pose proof (exp_ineq1_le x); unfold x in *; lra).
  assert (E1 : ((10006772161791314 / 10000000000000000) <= exp (2 * x))%R) by (apply (exp_dbl _ (10003385507812500 / 10000000000000000)); [lra|exact E0|lra]).
  assert (E2 : ((10013548909800160 / 10000000000000000) <= exp (2 * (2 * x)))%R) by (apply (exp_dbl _ (10006772161791314 / 10000000000000000)); [lra|exact E1|lra]).
  assert (E3 : ((10027116176895997 / 10000000000000000) <= exp (2 * (2 * (2 * x))))%R) by (apply (exp_dbl _ (10013548909800160 / 10000000000000000)); [lra|exact E2|lra]).
  assert (E4 : ((10054305882496939 / 10000000000000000) <= exp (2 * (2 * (2 * (2 * x)))))%R) by (apply (exp_dbl _ (10027116176895997 / 10000000000000000)); [lra|exact E3|lra]).
  assert (E5 : ((10108906677881255 / 10000000000000000) <= exp (2 * (2 * (2 * (2 * (2 * x))))))%R) by (apply (exp_dbl _ (10054305882496939 / 10000000000000000)); [lra|exact E4|lra]).
  assert (E6 : ((10218999422211223 / 10000000000000000) <= exp (2 * (2 * (2 * (2 * (2 * (2 * x)))))))%R) by (apply (exp_dbl _ (10108906677881255 / 10000000000000000)); [lra|exact E5|lra]).
  assert (E7 : ((10442794919115330 / 10000000000000000) <= exp (2 * (2 * (2 * (2 * (2 * (2 * (2 * x))))))))%R) by (apply (exp_dbl _ (10218999422211223 / 10000000000000000)); [lra|exact E6|lra]).
  assert (E8 : ((10905196572270095 / 10000000000000000) <= exp (2 * (2 * (2 * (2 * (2 * (2 * (2 * (2 * x)))))))))%R) by (apply (exp_dbl _ (10442794919115330 / 10000000000000000)); [lra|exact E7|lra]).
  assert (E9 : ((11892331227985142 / 10000000000000000) <= exp (2 * (2 * (2 * (2 * (2 * (2 * (2 * (2 * (2 * x))))))))))%R) by (apply (exp_dbl _ (10905196572270095 / 10000000000000000)); [lra|exact E8|lra]).
  assert (E10 : ((14142754203611059 / 10000000000000000) <= exp (2 * (2 * (2 * (2 * (2 * (2 * (2 * (2 * (2 * (2 * x)))))))))))%R) by (apply (exp_dbl _ (11892331227985142 / 10000000000000000)); [lra|exact E9|lra]).
  assert (E11 : ((20001749646375827 / 10000000000000000) <= exp (2 * (2 * (2 * (2 * (2 * (2 * (2 * (2 * (2 * (2 * (2 * x))))))))))))%R) by (apply (exp_dbl _ (14142754203611059 / 10000000000000000)); [lra|exact E10|lra]).
  replace (2 * (2 * (2 * (2 * (2 * (2 * (2 * (2 * (2 * (2 * (2 * x)))))))))))%R with (693352 / 1000000)%R in E11 by (unfold x; field). lra.
Qed.
Lemma ln2_low : (exp (6929 / 10000) <= 2)%R.
Proof.
  set (x := (- (6929 / 10000 / 2048))%R).
  assert (E0 : ((9996616699218750 / 10000000000000000) <= exp x)%R) by (pose proof (exp_ineq1_le x); unfold x in *; lra).
  assert (E1 : ((9993234543109917 / 10000000000000000) <= exp (2 * x))%R) by (apply (exp_dbl _ (9996616699218750 / 10000000000000000)); [lra|exact E0|lra]).
  assert (E2 : ((9986473663360527 / 10000000000000000) <= exp (2 * (2 * x)))%R) by (apply (exp_dbl _ (9993234543109917 / 10000000000000000)); [lra|exact E1|lra]).
  assert (E3 : ((9972965622899342 / 10000000000000000) <= exp (2 * (2 * (2 * x))))%R) by (apply (exp_dbl _ (9986473663360527 / 10000000000000000)); [lra|exact E2|lra]).
  assert (E4 : ((9946004331553206 / 10000000000000000) <= exp (2 * (2 * (2 * (2 * x)))))%R) by (apply (exp_dbl _ (9972965622899342 / 10000000000000000)); [lra|exact E3|lra]).
  assert (E5 : ((9892300216327513 / 10000000000000000) <= exp (2 * (2 * (2 * (2 * (2 * x))))))%R) by (apply (exp_dbl _ (9946004331553206 / 10000000000000000)); [lra|exact E4|lra]).
  assert (E6 : ((9785760356995336 / 10000000000000000) <= exp (2 * (2 * (2 * (2 * (2 * (2 * x)))))))%R) by (apply (exp_dbl _ (9892300216327513 / 10000000000000000)); [lra|exact E5|lra]).
  assert (E7 : ((9576110576454148 / 10000000000000000) <= exp (2 * (2 * (2 * (2 * (2 * (2 * (2 * x))))))))%R) by (apply (exp_dbl _ (9785760356995336 / 10000000000000000)); [lra|exact E6|lra]).
  assert (E8 : ((9170189377247699 / 10000000000000000) <= exp (2 * (2 * (2 * (2 * (2 * (2 * (2 * (2 * x)))))))))%R) by (apply (exp_dbl _ (9576110576454148 / 10000000000000000)); [lra|exact E7|lra]).
  assert (E9 : ((8409237321458654 / 10000000000000000) <= exp (2 * (2 * (2 * (2 * (2 * (2 * (2 * (2 * (2 * x))))))))))%R) by (apply (exp_dbl _ (9170189377247699 / 10000000000000000)); [lra|exact E8|lra]).
  assert (E10 : ((7071527232861311 / 10000000000000000) <= exp (2 * (2 * (2 * (2 * (2 * (2 * (2 * (2 * (2 * (2 * x)))))))))))%R) by (apply (exp_dbl _ (8409237321458654 / 10000000000000000)); [lra|exact E9|lra]).
  assert (E11 : ((5000649740509915 / 10000000000000000) <= exp (2 * (2 * (2 * (2 * (2 * (2 * (2 * (2 * (2 * (2 * (2 * x))))))))))))%R) by (apply (exp_dbl _ (7071527232861311 / 10000000000000000)); [lra|exact E10|lra]).
  replace (2 * (2 * (2 * (2 * (2 * (2 * (2 * (2 * (2 * (2 * (2 * x)))))))))))%R with (- (6929 / 10000))%R in E11 by (unfold x; field). rewrite exp_Ropp in E11.
  assert (P := exp_pos (6929 / 10000)). apply Rmult_le_compat_l with (r := exp (6929 / 10000)) in E11; [|lra]. rewrite Rinv_r in E11 by lra. lra.
Qed.
Lemma tri_pow n k : (INR (pascal_tri n k) <= 2 ^ n)%R.
Proof. replace 2%R with (INR 2) by reflexivity. rewrite <- pow_INR. apply le_INR, tri_le. Qed.

(** ** the binomial coefficient up to 2^-31, exact below 2^31 *)
Lemma binom_many flg fexp (n k : nat) (x : f64) : accurate_loggamma_to 1023 flg -> relative_exp_to (7093 / 10) fexp -> (k <= n <= 1023)%nat ->
  is_finite x = true -> B2R x = IZR (Z.of_nat k) ->
  let b := binomial_fp flg fexp (Z.of_nat n) x in let t := INR (pascal_tri n k) in
  is_finite b = true /\ (Rabs (B2R b - t) <= bpow radix2 (-31) * t)%R /\ (t <= bpow radix2 31 -> B2R b = t)%R.
Proof.
  intros Hg He Hk Fx Ex. cbv zeta. unfold binomial_fp.
  rewrite (fint_add x (Z.of_nat k) 1) by (auto; lia).
  assert (Hs : is_finite (fsub (fint (Z.of_nat n)) x) = true /\ B2R (fsub (fint (Z.of_nat n)) x) = IZR (Z.of_nat (n - k))).
  { destruct (fint_ok (Z.of_nat n) ltac:(lia)) as [Fn En].
    assert (R : rnd (B2R (fint (Z.of_nat n)) - B2R x) = IZR (Z.of_nat (n - k))).
    { rewrite En, Ex, <- minus_IZR. rewrite rnd_Z by lia. f_equal. lia. }
    destruct (fsub_ok (fint (Z.of_nat n)) x Fn Fx) as [F E]; [|split; [exact F|congruence]].
    rewrite R, <- abs_IZR. apply Rle_lt_trans with (bpow radix2 11); [change (bpow radix2 11) with 2048%R; apply IZR_le; lia|apply bpow_lt; lia]. }
  destruct Hs as [Fs Es]. rewrite (fint_add _ (Z.of_nat (n - k)) 1) by (auto; lia).
  destruct (Hg n ltac:(lia)) as [Fa Aa]. destruct (Hg k ltac:(lia)) as [Fb Ab]. destruct (Hg (n - k)%nat ltac:(lia)) as [Fc Ac].
  set (ya := flg (fint (Z.of_nat n + 1))) in *. set (yb := flg (fint (Z.of_nat k + 1))) in *. set (yc := flg (fint (Z.of_nat (n - k) + 1))) in *.
  pose proof (ln_tri n k ltac:(lia)) as LT. pose proof (ln_fact_many n ltac:(lia)) as La. pose proof (ln_fact_many k ltac:(lia)) as Lb. pose proof (ln_fact_many (n - k) ltac:(lia)) as Lc.
  set (a := ln (INR (fact n))) in *. set (b := ln (INR (fact k))) in *. set (c := ln (INR (fact (n - k)))) in *.
  pose proof (tri_pow n k) as TP. set (t := INR (pascal_tri n k)) in *.
  assert (T1 : (1 <= t)%R) by (unfold t; replace 1%R with (INR 1) by reflexivity; apply le_INR, tri_pos; lia).
  assert (T2 : (t <= bpow radix2 1023)%R).
  { apply Rle_trans with (1 := TP). apply Rle_trans with (2 ^ 1023)%R; [apply Rle_pow; [lra|lia]|]. rewrite bpow_powerRZ. change 1023 with (Z.of_nat 1023). rewrite <- pow_powerRZ. right. reflexivity. }
  assert (Hl : (0 <= ln t)%R) by (rewrite <- ln_1; apply ln_le; lra).
  change (bpow radix2 (-47)) with (/ 140737488355328)%R in *. apply Rabs_le_inv in Aa, Ab, Ac.
  assert (S1 : (Rabs (B2R ya - B2R yb) <= bpow radix2 13)%R) by (change (bpow radix2 13) with 8192%R; apply Rabs_le; lra).
  pose proof (rnd_abs_pow _ 13 ltac:(lia) S1) as E1. change (bpow radix2 13) with 8192%R in S1, E1. apply Rabs_le_inv in S1, E1.
  assert (Hep : eps = (/ 9007199254740992)%R) by reflexivity. rewrite Hep in E1.
  assert (BIG : forall v, (Rabs v <= 2 ^ 42)%R -> (Rabs v < bpow radix2 1024)%R).
  { intros v Hv. apply Rle_lt_trans with (1 := Hv). replace (2 ^ 42)%R with (bpow radix2 42) by (cbn; lra). apply bpow_lt. lia. }
  destruct (fsub_ok ya yb Fa Fb) as [Fd Ed]; [apply BIG, Rabs_le; lra|]. set (d := fsub ya yb) in *.
  assert (S2 : (Rabs (B2R d - B2R yc) <= bpow radix2 13)%R) by (change (bpow radix2 13) with 8192%R; apply Rabs_le; lra).
  pose proof (rnd_abs_pow _ 13 ltac:(lia) S2) as E2. change (bpow radix2 13) with 8192%R in S2, E2. apply Rabs_le_inv in S2, E2. rewrite Hep in E2.
  destruct (fsub_ok d yc Fd Fc) as [Fy Ey]; [apply BIG, Rabs_le; lra|]. set (y := fsub d yc) in *.
  set (r := (B2R y - ln t)%R). assert (Hr : (Rabs r <= 1600000 * eps)%R) by (unfold r; rewrite Hep; apply Rabs_le; lra).
  apply Rabs_le_inv in Hr. rewrite Hep in Hr.
  assert (Hlt : (ln t <= 70930 / 100 - / 10000)%R).
  { apply Rle_trans with (ln (2 ^ n)); [apply ln_le; lra|]. rewrite ln_pow by lra. pose proof ln2_up.
    assert (0 < ln 2)%R by (rewrite <- ln_1; apply ln_increasing; lra).
    assert (INR n <= 1023)%R by (rewrite INR_IZR_INZ; apply IZR_le; lia). assert (0 <= INR n)%R by apply pos_INR.
    apply Rle_trans with (1023 * (693352 / 1000000))%R; [|lra]. apply Rmult_le_compat; lra. }
  destruct (He y Fy) as [Fe Ae]; [unfold r in Hr; lra|].
  change (bpow radix2 (-47)) with (/ 140737488355328)%R in Ae.
  assert (EX : exp (B2R y) = (t * exp r)%R). { unfold r. unfold Rminus. rewrite exp_plus, exp_Ropp, exp_ln by lra. field. lra. }
  rewrite EX in Ae.
  assert (RU : (exp r <= 1 + 1600100 * / 9007199254740992)%R).
  { apply Rle_trans with (exp (1600000 * / 9007199254740992)); [apply exp_mono; lra|].
    replace (1600000 * / 9007199254740992)%R with (- - (1600000 * / 9007199254740992))%R by ring. rewrite exp_Ropp.
    apply Rle_trans with (/ (1 - 1600000 * / 9007199254740992))%R.
    - apply Rinv_le_contravar; [lra|]. pose proof (exp_ineq1_le (- (1600000 * / 9007199254740992))). lra.
    - apply Rmult_le_reg_r with (1 - 1600000 * / 9007199254740992)%R; [lra|]. rewrite Rinv_l by lra. lra. }
  assert (RL : (1 - 1600000 * / 9007199254740992 <= exp r)%R) by (pose proof (exp_ineq1_le r); lra).
  set (w := exp r) in *. set (v := B2R (fexp y)) in *.
  assert (TW : (Rabs (t * w - t) <= t * (1600100 * / 9007199254740992))%R).
  { replace (t * w - t)%R with (t * (w - 1))%R by ring. rewrite Rabs_mult, (Rabs_pos_eq t) by lra. apply Rmult_le_compat_l; [lra|]. apply Rabs_le. lra. }
  apply Rabs_le_inv in TW, Ae.
  assert (V : (t - 1600200 * / 9007199254740992 * t <= v <= t + 1600200 * / 9007199254740992 * t)%R) by lra.
  destruct half_ok as [Fh Eh].
  assert (B0 : (bpow radix2 (-1022) <= 1)%R) by (change 1%R with (bpow radix2 0); apply bpow_le; lia).
  pose proof (rnd_rel (/ 2 + v)) as E3. rewrite Rabs_pos_eq in E3 by lra. specialize (E3 ltac:(lra)). rewrite Hep in E3. apply Rabs_le_inv in E3.
  destruct (fadd_ok fhalf (fexp y) Fh Fe) as [Fz Ez].
  { rewrite Eh. fold v. apply Rle_lt_trans with (9 / 5 * bpow radix2 1023)%R; [|change 1024 with (1 + 1023); rewrite bpow_plus; change (bpow radix2 1) with 2%R; pose proof (bpow_gt_0 radix2 1023); lra]. apply Rabs_le. lra. }
  rewrite Eh in Ez. fold v in Ez. destruct (ffloor_ok _ Fz) as [FF EF]. split; [exact FF|]. rewrite EF, Ez.
  change (bpow radix2 (-31)) with (/ 2147483648)%R. change (bpow radix2 31) with 2147483648%R.
  assert (SM : (t <= 2147483648)%R -> IZR (Zfloor (rnd (/ 2 + v))) = t).
  { intros Ht. unfold t. rewrite INR_IZR_INZ. f_equal. apply Zfloor_imp. rewrite plus_IZR, <- INR_IZR_INZ. fold t. lra. }
  split; [|exact SM]. destruct (Rle_or_lt t 2147483648) as [Ht|Ht].
  - rewrite SM by exact Ht. rewrite Rminus_eq_0, Rabs_R0. lra.
  - pose proof (Zfloor_lb (rnd (/ 2 + v))). pose proof (Zfloor_ub (rnd (/ 2 + v))). apply Rabs_le. lra.
Qed.

(*% ** C86: many directions *)
(*@ C86_binomial *)
Lemma fp_binomial_many : forall flg fexp (n k : nat), accurate_loggamma_to 1023 flg -> relative_exp_to (7093 / 10) fexp -> (k <= n <= 1023)%nat ->
  let b := binomial_fp flg fexp (Z.of_nat n) (fint (Z.of_nat k)) in
  is_finite b = true /\ (Rabs (B2R b - Binomial.C n k) <= bpow radix2 (-31) * Binomial.C n k)%R /\
  (Binomial.C n k <= bpow radix2 31 -> B2R b = Binomial.C n k)%R.
Proof.
  intros flg fexp n k Hg He Hk. rewrite <- tri_C by lia. destruct (fint_ok (Z.of_nat k) ltac:(lia)) as [F E].
  now apply binom_many.
Qed.

(** *** the directional component *)
Definition ud : R := (9 / 16 * bpow radix2 (-31))%R.
Lemma ud_pos : (0 < ud <= / 1000000)%R.
Proof. unfold ud. change (bpow radix2 (-31)) with (/ 2147483648)%R. lra. Qed.
Lemma rel_apx x y : (0 <= y)%R -> (Rabs (x - y) <= bpow radix2 (-31) * y)%R -> apx (17 / 16 * bpow radix2 (-31)) x y.
Proof.
  intros Hy H. change (bpow radix2 (-31)) with (/ 2147483648)%R in *. set (e := (17 / 16 * / 2147483648)%R). apply Rabs_le_inv in H. split; [exact Hy|]. split.
  - apply Rle_trans with (y * (1 - / 2147483648))%R; [|lra]. apply Rmult_le_compat_l; [exact Hy|].
    rewrite exp_Ropp. apply Rle_trans with (/ (1 + e))%R.
    + apply Rinv_le_contravar; [unfold e; lra|]. apply exp_ineq1_le.
    + apply Rmult_le_reg_r with (1 + e)%R; [unfold e; lra|]. rewrite Rinv_l by (unfold e; lra). unfold e. lra.
  - apply Rle_trans with (y * (1 + / 2147483648))%R; [lra|]. apply Rmult_le_compat_l; [exact Hy|]. pose proof (exp_ineq1_le e). unfold e in *. lra.
Qed.
Lemma fint_pow g : 0 <= g <= 1023 -> is_finite (fint (2 ^ g)) = true /\ B2R (fint (2 ^ g)) = bpow radix2 g.
Proof.
  intros Hg'. pose proof (binary_normalize_correct 53 1024 gt53 lt53 mode_NE (2 ^ g) 0 false) as H.
  cbv zeta in H. change (binary_normalize 53 1024 gt53 lt53 mode_NE (2 ^ g) 0 false) with (fint (2 ^ g)) in H.
  assert (E : F2R (Float radix2 (2 ^ g) 0) = bpow radix2 g).
  { unfold F2R. cbn [Fnum Fexp]. change (bpow radix2 0) with 1%R. rewrite Rmult_1_r. change 2 with (radix_val radix2). apply IZR_Zpower. lia. }
  rewrite E in H. rewrite (round_generic radix2 (SpecFloat.fexp 53 1024) (round_mode mode_NE) (bpow radix2 g)) in H.
  - rewrite Rlt_bool_true in H; [destruct H as (A & B & _); auto|]. rewrite Rabs_pos_eq by apply bpow_ge_0. apply bpow_lt. lia.
  - apply generic_format_bpow. change (SpecFloat.fexp 53 1024) with (FLT_exp (-1074) 53). unfold FLT_exp. lia.
Qed.

Section MANY.
Variables (flg fexp : f64 -> f64).
Hypothesis Hg : accurate_loggamma_to 1023 flg.
Hypothesis He : relative_exp_to (7093 / 10) fexp.

Lemma dsq_lb N el m b : 1 <= N -> gam N el <= b -> 1 <= el -> Z.abs m <= el -> dmask N m = true -> (bpow radix2 (- b) <= dsq N el m)%R.
Proof.
  intros HN HG Hel Hm Hd. destruct (gam_mask N el m ltac:(lia) Hel Hm Hd) as (Hgm & k & Hk & Hkr). pose proof (gam_range N el ltac:(lia) Hel) as [Hg' _].
  unfold dsq. set (g := gam N el) in *. replace ((g - m) / 2) with k by (rewrite Hk, Z.mul_comm, Z.div_mul; lia).
  assert (T : (1 <= INR (pascal_tri (Z.to_nat g) (Z.to_nat k)))%R) by (replace 1%R with (INR 1) by reflexivity; apply le_INR, tri_pos; lia).
  replace (2 ^ Z.to_nat g)%R with (bpow radix2 g).
  2:{ rewrite bpow_powerRZ. rewrite <- (Z2Nat.id g) at 1 by lia. rewrite <- pow_powerRZ. reflexivity. }
  apply Rle_trans with (bpow radix2 (- g)); [apply bpow_le; lia|]. rewrite bpow_opp. unfold Rdiv. pose proof (bpow_gt_0 radix2 g) as P. apply Rinv_0_lt_compat in P.
  rewrite <- (Rmult_1_l (/ bpow radix2 g)) at 1. apply Rmult_le_compat_r; lra.
Qed.
Lemma sdsq_lb N el m b : 1 <= N -> gam N el <= 2 * b -> 1 <= el -> Z.abs m <= el -> dmask N m = true -> (bpow radix2 (- b) <= sqrt (dsq N el m) <= 1)%R.
Proof.
  intros HN HG Hel Hm Hd. split; [|rewrite <- sqrt_1; apply sqrt_le_1_alt, dsq_le1].
  apply Rsqr_incr_0_var; [|apply sqrt_pos]. rewrite Rsqr_sqrt by apply dsq_nonneg. unfold Rsqr. rewrite <- bpow_plus. replace (- b + - b) with (- (2 * b)) by lia. now apply dsq_lb.
Qed.
Lemma rdir_many N el m : 1 <= N -> gam N el <= 1023 -> 1 <= el -> Z.abs m <= el -> dmask N m = true -> fa ud (rdir flg fexp N el m) (sqrt (dsq N el m)).
Proof.
  intros HN HG Hel Hm Hd. pose proof (sdsq_lb N el m 512 HN ltac:(lia) Hel Hm Hd) as SL.
  destruct (gam_mask N el m ltac:(lia) Hel Hm Hd) as (Hgm & k & Hk & Hkr).
  pose proof (gam_range N el ltac:(lia) Hel) as [Hg' _]. unfold rdir. set (g := gam N el) in *.
  destruct (half_k g m k ltac:(lia) Hk) as [Fh Eh].
  destruct (binom_many flg fexp (Z.to_nat g) (Z.to_nat k) _ Hg He ltac:(lia) Fh) as (Fb & Eb & Et); [rewrite Eh; f_equal; lia|].
  rewrite Z2Nat.id in Fb, Eb, Et by lia. set (b := binomial_fp _ _ _ _) in *.
  destruct (fint_pow g ltac:(lia)) as [F2 E2]. pose proof (bpow_gt_0 radix2 g) as P.
  assert (ED : (INR (pascal_tri (Z.to_nat g) (Z.to_nat k)) / bpow radix2 g = dsq N el m)%R).
  { unfold dsq. fold g. replace ((g - m) / 2) with k by (rewrite Hk, Z.mul_comm, Z.div_mul; lia). f_equal. f_equal.
    rewrite bpow_powerRZ. rewrite <- (Z2Nat.id g) at 1 by lia. rewrite <- pow_powerRZ. reflexivity. }
  pose proof u1_pos. change (bpow radix2 (-31)) with (/ 2147483648)%R in Eb.
  pose proof (dsq_le1 N el m) as D1.
  assert (A : fa (17 / 16 * / 2147483648 + 0 + u1) (fdiv b (fint (2 ^ g))) (dsq N el m)).
  { set (t := INR (pascal_tri (Z.to_nat g) (Z.to_nat k))) in *. assert (T0 : (0 <= t)%R) by apply pos_INR. change (bpow radix2 31) with 2147483648%R in Et.
    assert (N2 : B2R (fint (2 ^ g)) <> 0%R) by (rewrite E2; lra).
    assert (TT : t = 1%R \/ (2 <= t)%R).
    { assert (1 <= pascal_tri (Z.to_nat g) (Z.to_nat k))%nat by (apply tri_pos; lia). unfold t.
      destruct (Nat.eq_dec (pascal_tri (Z.to_nat g) (Z.to_nat k)) 1) as [-> |]; [left; reflexivity|right]. replace 2%R with (INR 2) by reflexivity. apply le_INR. lia. }
    assert (RB : (Rabs (rnd (B2R b / B2R (fint (2 ^ g)))) < bpow radix2 1024)%R).
    { rewrite E2. apply Rabs_le_inv in Eb. assert (X : (0 <= B2R b / bpow radix2 g <= 2)%R).
      { split; [apply Rdiv_le_0_compat; lra|]. apply Rle_trans with (2 * t / bpow radix2 g)%R; [|unfold Rdiv in *; rewrite Rmult_assoc, ED; lra].
        apply Rmult_le_compat_r; [left; now apply Rinv_0_lt_compat|lra]. }
      assert (R0 : (0 <= rnd (B2R b / bpow radix2 g))%R) by (rewrite <- rnd_0; apply rnd_mono; lra). rewrite Rabs_pos_eq by exact R0.
      apply Rle_lt_trans with (bpow radix2 1); [|apply bpow_lt; lia]. replace (bpow radix2 1) with (rnd 2) by (change 2%R with (IZR 2); rewrite rnd_Z by lia; reflexivity).
      apply rnd_mono. lra. }
    destruct (fdiv_ok b (fint (2 ^ g)) Fb N2 RB) as [FQ EQ]. split; [exact FQ|]. rewrite EQ, E2. destruct TT as [T1|T1].
    - rewrite Et by lra. rewrite ED. replace (rnd (dsq N el m)) with (dsq N el m); [apply apx_refl; [lra|apply dsq_nonneg]|].
      rewrite <- ED, T1. unfold Rdiv. rewrite Rmult_1_l, <- bpow_opp. symmetry. apply round_generic; [apply _|]. apply generic_format_bpow.
      change (SpecFloat.fexp 53 1024) with (FLT_exp (-1074) 53). unfold FLT_exp. lia.
    - rewrite Rplus_comm. apply apx_trans with (B2R b / bpow radix2 g)%R.
      + apply apx_rnd. right. apply Rle_trans with (2 / bpow radix2 g)%R.
        * apply Rmult_le_reg_r with (bpow radix2 g); [exact P|]. unfold Rdiv. rewrite Rmult_assoc, Rinv_l, Rmult_1_r by lra. rewrite <- bpow_plus.
          change 2%R with (bpow radix2 1). apply bpow_le. lia.
        * apply Rmult_le_compat_r; [left; now apply Rinv_0_lt_compat|]. destruct (Rle_or_lt t 2147483648) as [L|L]; [rewrite Et by exact L; exact T1|].
          apply Rabs_le_inv in Eb. lra.
      + rewrite <- ED. apply apx_div; [apply rel_apx; [exact T0|exact Eb]|apply apx_refl; lra|exact P]. }
  apply fa_weak with ((17 / 16 * / 2147483648 + 0 + u1) / 2 + u1)%R.
  - unfold ud, u1, eps. change (bpow radix2 (-31)) with (/ 2147483648)%R. lra.
  - apply fa_sqrt; [lra|exact A|]. split; [right; apply Rle_trans with (2 := proj1 SL), bpow_le; lia|]. apply Rle_trans with (1 := proj2 SL). change 1%R with (bpow radix2 0). apply bpow_le. lia.
Qed.
Lemma sdf_fin_many N el m : 1 <= N -> (1 <= el -> gam N el <= 1023) -> is_finite (fst (sdf flg fexp N el m)) = true /\ is_finite (snd (sdf flg fexp N el m)) = true.
Proof.
  intros HN HG. unfold sdf. destruct (Z.leb_spec 1 el); cbn [andb]; [|split; reflexivity].
  destruct (Z.leb_spec (Z.abs m) el); cbn [andb]; [|split; reflexivity]. destruct (dmask N m) eqn:D; [|split; reflexivity].
  destruct (rdir_many N el m) as [F _]; auto. destruct (nuf_val N _ F) as (A & B & _). auto.
Qed.
(** the entry is nu times a number near the modulus of the exact one *)
Lemma sdf_val_many N el m : 1 <= N -> (1 <= el -> gam N el <= 1023) -> exists v, apx ud v (Cmod (sd N el m)) /\ cval (sdf flg fexp N el m) = Cmult (nu N) (RtoC v).
Proof.
  intros HN HG. pose proof ud_pos. assert (Z0 : exists v, apx ud v 0 /\ cval (creal (fint 0)) = Cmult (nu N) (RtoC v)).
  { exists 0%R. split; [apply apx_refl; lra|]. apply creal0. }
  unfold sdf, sd. destruct (Z.leb_spec 1 el); cbn [andb]; [|rewrite Cmod_0; exact Z0].
  destruct (Z.leb_spec (Z.abs m) el); cbn [andb]; [|rewrite Cmod_0; exact Z0]. destruct (dmask N m) eqn:D; [|rewrite Cmod_0; exact Z0]. clear Z0.
  rewrite Cmod_mult, Cmod_nu, Cmod_R, Rabs_pos_eq, Rmult_1_l by apply sqrt_pos.
  destruct (rdir_many N el m) as [F A]; auto. exists (B2R (rdir flg fexp N el m)). split; [exact A|].
  destruct (nuf_val N _ F) as (_ & _ & ->). unfold nu, Cmult, Ci. destruct (negb _); apply injective_projections; cbn [fst snd RtoC]; ring.
Qed.
Lemma sdf_sq_many N el m : 1 <= N -> (1 <= el -> gam N el <= 1023) -> apx (2 * ud) (Cmod (cval (sdf flg fexp N el m)) ^ 2) (Cmod (sd N el m) ^ 2).
Proof. intros HN HG. destruct (sdf_val_many N el m HN HG) as (v & A & ->). rewrite Cmod_nur, pow2_abs. now apply apx_sq. Qed.
End MANY.
Lemma gam_900 L N el : 1 <= N -> N <= 900 \/ L <= 900 -> el < L -> 1 <= el -> gam N el <= 900.
Proof. intros HN HS Hl Hel. pose proof (gam_range N el HN Hel). lia. Qed.
Lemma gam_1023 L N el : float_powers L N -> el < L -> 1 <= el -> gam N el <= 1023.
Proof. intros HF Hel H. pose proof (gam_fits L N el HF ltac:(lia)). lia. Qed.

Lemma apx_near e v r : (0 <= e <= / 2)%R -> forall N, apx e v r -> (Cmod (Cmult (nu N) (RtoC v) - Cmult (nu N) (RtoC r))%C <= 2 * e * r)%R.
Proof.
  intros He N A. replace (Cmult (nu N) (RtoC v) - Cmult (nu N) (RtoC r))%C with (Cmult (nu N) (RtoC (v - r))) by (rewrite RtoC_minus; ring).
  rewrite Cmod_nur. now apply apx_abs.
Qed.

(*% every entry of the directional component has a relative error of at most 2^-30 *)
(*@ C86_component *)
Lemma fp_dir_many : forall flg fexp L N, accurate_loggamma_to 1023 flg -> relative_exp_to (7093 / 10) fexp -> 1 <= L -> 1 <= N -> float_powers L N ->
  exists sf s, tiling_direction_fp flg fexp L N = Ok sf /\ tiling_direction L N = Ok s /\ shape2 sf = shape2 s /\
    forall l m, 0 <= l < L -> Z.abs m < L -> let z := get2 sf l (L - 1 + m) in let t := get2 s l (L - 1 + m) in
      is_finite (fst z) = true /\ is_finite (snd z) = true /\ (Cmod (cval z - t)%C <= bpow radix2 (-30) * Cmod t)%R.
Proof.
  intros flg fexp L N Hg He HL HN HF. exists (sf_arr flg fexp L N), (s_arr L N). split; [apply tiling_fp_ok; auto|].
  split; [unfold tiling_direction; apply tiling_direction_with_ok; [apply loggamma_ok|lia|lia]|]. split; [reflexivity|].
  intros l m Hl Hm. cbv zeta. unfold sf_arr, s_arr. rewrite !get2_mk by lia. replace (L - 1 + m - (L - 1)) with m by lia.
  pose proof (gam_1023 L N l HF ltac:(lia)) as HG. destruct (sdf_fin_many flg fexp Hg He N l m HN HG) as [A B]. split; [exact A|]. split; [exact B|].
  destruct (sdf_val_many flg fexp Hg He N l m HN HG) as (v & V & ->). pose proof ud_pos. rewrite (sd_nu N l m) at 1.
  apply Rle_trans with (2 * ud * Cmod (sd N l m))%R; [apply apx_near; [lra|exact V]|]. apply Rmult_le_compat_r; [apply Cmod_ge_0|].
  unfold ud. change (bpow radix2 (-31)) with (/ 2147483648)%R. change (bpow radix2 (-30)) with (/ 1073741824)%R. lra.
Qed.
(*% so it stays normalised *)
(*@ C86_component_normalised *)
Lemma fp_dir_many_norm : forall flg fexp L N s, accurate_loggamma_to 1023 flg -> relative_exp_to (7093 / 10) fexp -> 1 <= L -> 1 <= N ->
  tiling_direction_fp flg fexp L N = Ok s ->
  forall l, 1 <= l < L -> (Rabs (sumZ (- l) (l + 1) (fun m => Cmod (cval (get2 s l (L - 1 + m))) ^ 2) - 1) <= bpow radix2 (-29))%R.
Proof.
  intros flg fexp L N s Hg He HL HN E l Hl. pose proof (tiling_fp_inv _ _ _ _ _ HL E) as HF. rewrite tiling_fp_ok in E by auto. apply Ok_inj in E. subst s.
  pose proof ud_pos as U. assert (A : apx (2 * ud) (sumZ (- l) (l + 1) (fun m => Cmod (cval (get2 (sf_arr flg fexp L N) l (L - 1 + m))) ^ 2)%R) 1).
  { rewrite sumZ_zrsum by lia. rewrite <- (sd_norm N l) by lia. replace (l + 1 - - l) with (2 * l + 1) by lia. apply apx_zrsum.
    intros k Hk. unfold sf_arr. rewrite get2_mk by lia. replace (L - 1 + (- l + k) - (L - 1)) with (k - l) by lia. apply sdf_sq_many; auto. intros _. apply (gam_1023 L); auto; lia. }
  apply apx_abs in A; [|lra].
  eapply Rle_trans; [exact A|]. unfold ud. change (bpow radix2 (-31)) with (/ 2147483648)%R. change (bpow radix2 (-29)) with (/ 536870912)%R. lra.
Qed.

(** *** the directional filters *)
Definition ue : R := (ud + 11 / 2 * u1)%R.
Lemma ue_pos : (0 < ue <= / 1000000)%R.
Proof. unfold ue, ud, u1, eps. change (bpow radix2 (-31)) with (/ 2147483648)%R. lra. Qed.
Section ENTRY.
Variables (flg fexp : f64 -> f64).
Hypothesis Hg : accurate_loggamma_to 1023 flg.
Hypothesis He : relative_exp_to (7093 / 10) fexp.
Variables (N l m : Z) (x p : f64).
Hypothesis HN : 1 <= N.
Hypothesis HS : 1 <= l -> gam N l <= 900.
Hypothesis Hl : 0 <= l < 2 ^ 52.
Hypothesis Hx : rt x.
Hypothesis Fx : is_finite x = true.
Hypothesis Hp : fa (9 / 2 * u1) p (cpsi l * B2R x).

Lemma prod_range_many s : (bpow radix2 (-450) <= s <= 1)%R -> norm_range (cpsi l * B2R x * s).
Proof.
  intros Hs. destruct (rt_range x Hx Fx) as [A B]. pose proof (cpsi_rng l Hl) as C. rewrite (Rmult_comm (cpsi l)).
  rewrite Rmult_assoc. apply (nr_mul _ _ (-537) 512 (-460) 53); try lia; auto. pose proof (bpow_gt_0 radix2 (-10)). pose proof (bpow_gt_0 radix2 (-450)). split.
  - change (-460) with (-10 + -450). rewrite bpow_plus. apply Rmult_le_compat; lra.
  - rewrite <- (Rmult_1_r (bpow radix2 53)). apply Rmult_le_compat; lra.
Qed.
Lemma entry_many : exists v, apx ue v (cpsi l * B2R x * Cmod (sd N l m)) /\
  is_finite (fst (cmul (creal p) (sdf flg fexp N l m))) = true /\ is_finite (snd (cmul (creal p) (sdf flg fexp N l m))) = true /\
  cval (cmul (creal p) (sdf flg fexp N l m)) = Cmult (nu N) (RtoC v).
Proof.
  destruct Hp as [Fp Ap]. pose proof u1_pos. pose proof ud_pos. pose proof ue_pos. pose proof (rt_nonneg x Hx Fx) as X0. pose proof (cpsi_rng l Hl) as CR. pose proof (bpow_gt_0 radix2 (-10)).
  assert (ZC : let s := creal (fint 0) in exists v, apx ue v (cpsi l * B2R x * 0) /\ is_finite (fst (cmul (creal p) s)) = true /\ is_finite (snd (cmul (creal p) s)) = true /\
     cval (cmul (creal p) s) = Cmult (nu N) (RtoC v)).
  { cbv zeta. exists 0%R. rewrite Rmult_0_r. split; [apply apx_refl; lra|]. destruct (fmul_0r p Fp) as [Z1 Z2].
    destruct (cmul_real p (creal (fint 0)) Fp eq_refl eq_refl Z1 Z1) as ((A & B) & C & D). split; [exact A|]. split; [exact C|].
    unfold cval. rewrite B, D. cbn [creal fst snd]. rewrite Z2. apply injective_projections; cbn; ring. }
  cbv zeta in ZC. unfold sdf, sd.
  destruct (Z.leb_spec 1 l); cbn [andb]; [|rewrite Cmod_0; exact ZC]. destruct (Z.leb_spec (Z.abs m) l); cbn [andb]; [|rewrite Cmod_0; exact ZC].
  destruct (dmask N m) eqn:D; [|rewrite Cmod_0; exact ZC]. clear ZC.
  rewrite Cmod_mult, Cmod_nu, Cmod_R, Rabs_pos_eq, Rmult_1_l by apply sqrt_pos.
  pose proof (rdir_many flg fexp Hg He N l m HN ltac:(specialize (HS ltac:(lia)); lia) ltac:(lia) ltac:(lia) D) as RF. set (r := rdir flg fexp N l m) in *.
  pose proof (sdsq_lb N l m 450 HN (HS ltac:(lia)) ltac:(lia) ltac:(lia) D) as DL.
  assert (M : fa ue (fmul p r) (cpsi l * B2R x * sqrt (dsq N l m))).
  { apply fa_weak with (9 / 2 * u1 + ud + u1)%R; [unfold ue; lra|]. apply fa_mul; [lra|split; auto|exact RF|]. apply prod_range_many; auto. }
  destruct M as [MF MA]. exists (B2R (fmul p r)). split; [exact MA|]. destruct RF as [RF _]. destruct (nuf_val N r RF) as (NA & NB & NV).
  assert (G0 : forall y : f64, is_finite y = true -> B2R y = 0%R -> is_finite (fmul p y) = true /\ B2R (fmul p y) = 0%R).
  { intros y Fy Y0. destruct (fmul_ok p y Fp Fy) as [A B]; [rewrite Y0, Rmult_0_r; apply small_rnd; rewrite Rabs_R0; lra|]. split; [exact A|].
    rewrite B, Y0, Rmult_0_r. apply rnd_0. }
  assert (Gr : forall y : f64, is_finite y = true -> B2R y = B2R r -> is_finite (fmul p y) = true /\ B2R (fmul p y) = B2R (fmul p r)).
  { intros y Fy Yr. destruct (fmul_ok p r Fp RF) as [A B].
    - destruct (Rlt_or_le (Rabs (rnd (B2R p * B2R r))) (bpow radix2 1024)) as [HH|HH]; [exact HH|exfalso].
      pose proof (Bmult_correct 53 1024 gt53 lt53 mode_NE p r) as GG. rewrite Rlt_bool_false in GG by exact HH.
      change (Bmult mode_NE p r) with (fmul p r) in GG. change (binary_overflow 53 1024 mode_NE) with (fun s => SpecFloat.S754_infinity s) in GG. cbv beta in GG.
      destruct (fmul p r); discriminate.
    - destruct (fmul_ok p y Fp Fy) as [A' B'].
      + rewrite Yr, <- B. apply abs_B2R_lt_emax.
      + split; [exact A'|]. rewrite B', Yr, <- B. reflexivity. }
  assert (NVF := f_equal fst NV). assert (NVS := f_equal snd NV). cbn [cval fst snd] in NVF, NVS. unfold nu.
  destruct (negb (N mod 2 =? 0)); cbn [fst snd] in NVF, NVS.
  - destruct (Gr _ NA NVF) as [G1 G2]. destruct (G0 _ NB NVS) as [G3 G4].
    destruct (cmul_real p (nuf N r) Fp NA NB G1 G3) as ((A & B) & C & D'). split; [exact A|]. split; [exact C|].
    assert (B2 := eq_trans B G2). assert (D2 := eq_trans D' G4).
    apply injective_projections; [eapply eq_trans; [exact B2|]|eapply eq_trans; [exact D2|]]; cbn [Cmult fst snd RtoC Ci]; ring.
  - destruct (G0 _ NA NVF) as [G1 G2]. destruct (Gr _ NB NVS) as [G3 G4].
    destruct (cmul_real p (nuf N r) Fp NA NB G1 G3) as ((A & B) & C & D'). split; [exact A|]. split; [exact C|].
    assert (B2 := eq_trans B G2). assert (D2 := eq_trans D' G4).
    apply injective_projections; [eapply eq_trans; [exact B2|]|eapply eq_trans; [exact D2|]]; cbn [Cmult fst snd RtoC Ci]; ring.
Qed.
End ENTRY.

Definition near_many (L N J J_min e : Z) (psi : arr3 c64) (phi : arr1 f64) (kpsi : arr2 f64) (kphi : arr1 f64) : Prop :=
  (forall l, e <= l < L -> is_finite (get1 kphi l) = true ->
     is_finite (get1 phi l) = true /\ apx (7 / 2 * u1) (B2R (get1 phi l)) (cphi l * B2R (get1 kphi l))) /\
  (forall j l m, J_min <= j <= J -> e <= l < L -> Z.abs m < L -> is_finite (get2 kpsi j l) = true ->
     let z := get3 psi j l (L - 1 + m) in is_finite (fst z) = true /\ is_finite (snd z) = true /\
     exists v, apx ue v (cpsi l * B2R (get2 kpsi j l) * Cmod (sd N l m)) /\ cval z = Cmult (nu N) (RtoC v)).

Lemma near_psiv flg fexp (Hg : accurate_loggamma_to 1023 flg) (He : relative_exp_to (7093 / 10) fexp) J L N spin kpsi kphi :
  1 <= L <= 2 ^ 52 -> 1 <= N -> N <= 900 \/ L <= 900 -> 0 <= J ->
  (forall j l, 0 <= j <= J -> 0 <= l < L -> rt (get2 kpsi j l)) -> (forall l, 0 <= l < L -> rt (get1 kphi l)) ->
  near_many L N J 0 (Z.abs spin) (mk3 (J + 1) L (2 * L - 1) (fun j l q => psiv fexp flg N spin kpsi j l (q - (L - 1)))) (mk1 L (phiv spin kphi)) kpsi kphi.
Proof.
  intros HL HN HS HJ Tpsi Tphi. pose proof u1_pos. split.
  - intros l Hl F. rewrite get1_mk by lia. pose proof (Tphi l ltac:(lia)) as T. pose proof (cphi_rng l ltac:(lia)) as CR. pose proof (bpow_gt_0 radix2 (-10)).
    unfold phiv. replace (el_min spin 0 <=? l) with true by (unfold el_min; zb).
    rewrite (Rmult_comm (cphi l)). apply fa_weak with (0 + 5 / 2 * u1 + u1)%R; [lra|]. apply fa_mul; [lra|apply fa_self; [exact F|now apply rt_nonneg]|apply cphi_fa; lia|].
    destruct (rt_range _ T F) as [TA TB]. apply (nr_mul _ _ (-537) 512 (-10) 53); try lia; auto.
  - intros j l m Hj Hl Hm F. rewrite get3_mk by lia. replace (L - 1 + m - (L - 1)) with m by lia. cbv zeta.
    pose proof (Tpsi j l ltac:(lia) ltac:(lia)) as T. pose proof (cpsi_rng l ltac:(lia)) as CR. pose proof (bpow_gt_0 radix2 (-10)).
    unfold psiv. replace (el_min spin 0 <=? l) with true by (unfold el_min; zb).
    assert (HP : fa (9 / 2 * u1) (fmul (get2 kpsi j l) (wav_weight_vec_fp l)) (cpsi l * B2R (get2 kpsi j l))).
    { rewrite (Rmult_comm (cpsi l)). apply fa_weak with (0 + 7 / 2 * u1 + u1)%R; [lra|]. apply fa_mul; [lra|apply fa_self; [exact F|now apply rt_nonneg]|apply cpsi_vec_fa; lia|].
      destruct (rt_range _ T F) as [TA TB]. apply (nr_mul _ _ (-537) 512 (-10) 53); try lia; auto. }
    destruct (entry_many flg fexp Hg He N l m _ _ HN (gam_900 L N l HN HS ltac:(lia)) ltac:(lia) T F HP) as (v & A & B & C & D). split; [exact B|]. split; [exact C|]. exists v. auto.
Qed.

Lemma total_near L N J J_min spin psi phi kpsi kphi l : 1 <= L -> 1 <= N -> 0 <= J_min < J -> near_many L N J J_min (Z.abs spin) psi phi kpsi kphi ->
  Z.abs spin <= l < L -> is_finite (get1 kphi l) = true -> (forall j, J_min <= j <= J -> is_finite (get2 kpsi j l) = true) ->
  1 <= l \/ (forall j, J_min <= j <= J -> B2R (get2 kpsi j l) = 0%R) ->
  apx (2 * ue) (fp_dir_total L psi phi J_min J l) (fp_total kpsi kphi J_min J l).
Proof.
  intros HL HN HJ [NA NB] Hl F0 F1 Hl1. pose proof u1_pos as U. pose proof ue_pos. pose proof pi34 as P4.
  assert (UE : (7 * u1 <= 2 * ue)%R) by (unfold ue; pose proof ud_pos; lra).
  assert (EC : (2 * IZR l + 1)%R = IZR (2 * l + 1)) by (rewrite plus_IZR, mult_IZR; reflexivity).
  assert (C0 : (0 < IZR (2 * l + 1))%R) by (apply IZR_lt; lia).
  unfold fp_dir_total, dir_total, fp_total. rewrite get1_mk by lia. rewrite EC. apply apx_add.
  - destruct (NA l Hl F0) as [_ B]. apply apx_sq in B.
    replace (B2R (get1 kphi l) ^ 2)%R with (4 * PI / IZR (2 * l + 1) * (cphi l * B2R (get1 kphi l)) ^ 2)%R.
    2:{ rewrite Rpow_mult_distr. unfold cphi. rewrite pow2_sqrt by (left; apply Rdiv_lt_0_compat; lra). field. split; lra. }
    replace (2 * ue)%R with ((2 * ue - 7 * u1) + (2 * (7 / 2 * u1)))%R by field. apply apx_mul; [|exact B]. apply apx_refl; [lra|]. left. apply Rdiv_lt_0_compat; lra.
  - replace (2 * ue)%R with (0 + 2 * ue)%R by ring.
    replace (zrsum (J - J_min + 1) (fun i => B2R (get2 kpsi (J_min + i) l) ^ 2)%R)
      with (8 * PI ^ 2 / IZR (2 * l + 1) * zrsum (J - J_min + 1) (fun i => (cpsi l * B2R (get2 kpsi (J_min + i) l)) ^ 2)%R)%R.
    2:{ rewrite zrsum_mul. apply zrsum_ext. intros i Hi. rewrite Rpow_mult_distr. unfold cpsi. rewrite pow2_sqrt.
        - field. split; lra.
        - left. apply Rdiv_lt_0_compat; [exact C0|]. pose proof pi8_rng. lra. }
    apply apx_mul; [apply apx_refl; [lra|]; left; apply Rdiv_lt_0_compat; [|exact C0]; nra|].
    rewrite sumZ_zrsum by lia. replace (J + 1 - J_min) with (J - J_min + 1) by lia. apply apx_zrsum. intros i Hi.
    rewrite sumZ_zrsum by lia. replace (l + 1 - - l) with (2 * l + 1) by lia.
    replace ((cpsi l * B2R (get2 kpsi (J_min + i) l)) ^ 2)%R
      with (zrsum (2 * l + 1) (fun k => (cpsi l * B2R (get2 kpsi (J_min + i) l)) ^ 2 * Cmod (sd N l (k - l)) ^ 2)%R).
    2:{ rewrite <- zrsum_mul. destruct Hl1 as [Hl1|Hl1]; [rewrite (sd_norm N l) by lia; ring|]. rewrite Hl1 by lia. ring. }
    apply apx_zrsum. intros k Hk. rewrite get3_mk by lia.
    destruct (NB (J_min + i) l (- l + k) ltac:(lia) Hl ltac:(lia) (F1 (J_min + i) ltac:(lia))) as (_ & _ & v & C & D). cbv zeta in D. rewrite D, Cmod_nur, pow2_abs.
    replace (- l + k) with (k - l) in C by lia. rewrite <- Rpow_mult_distr. now apply apx_sq.
Qed.
Lemma acc_near L N J J_min spin psi phi kpsi kphi s l : 1 <= L -> 1 <= N -> near_many L N J J_min (Z.abs spin) psi phi kpsi kphi -> tiling_direction L N = Ok s -> Z.abs spin <= l < L ->
    (is_finite (get1 kphi l) = true -> let w := (sqrt ((2 * IZR l + 1) / (4 * PI)) * B2R (get1 kphi l))%R in
       is_finite (get1 phi l) = true /\ (Rabs (B2R (get1 phi l) - w) <= bpow radix2 (-50) * w)%R) /\
    (forall j m, J_min <= j <= J -> Z.abs m < L -> is_finite (get2 kpsi j l) = true ->
       let w := (sqrt ((2 * IZR l + 1) / (8 * PI ^ 2)) * B2R (get2 kpsi j l))%R in
       let z := get3 psi j l (L - 1 + m) in let t := Cmult (RtoC w) (get2 s l (L - 1 + m)) in
       is_finite (fst z) = true /\ is_finite (snd z) = true /\ (Cmod (Cminus (cval z) t) <= bpow radix2 (-30) * Cmod t)%R).
Proof.
  intros HL HN [NA NB] ES Hl. pose proof u1_pos as U. pose proof ue_pos.
  assert (EC : (2 * IZR l + 1)%R = IZR (2 * l + 1)) by (rewrite plus_IZR, mult_IZR; reflexivity).
  unfold tiling_direction in ES. rewrite tiling_direction_with_ok in ES by (try apply loggamma_ok; lia). apply Ok_inj in ES. subst s. rewrite EC.
  assert (U50 : (7 * u1 <= bpow radix2 (-50))%R) by (unfold u1, eps; change (bpow radix2 (-50)) with (/ 1125899906842624)%R; lra).
  assert (U30 : (2 * ue <= bpow radix2 (-30))%R) by (unfold ue, ud, u1, eps; change (bpow radix2 (-31)) with (/ 2147483648)%R; change (bpow radix2 (-30)) with (/ 1073741824)%R; lra).
  split.
  - intros F. cbv zeta. fold (cphi l). destruct (NA l Hl F) as [A B]. split; [exact A|]. pose proof (apx_abs (7 / 2 * u1) _ _ ltac:(lra) B) as H0.
    assert (W : (0 <= cphi l * B2R (get1 kphi l))%R) by apply B. eapply Rle_trans; [exact H0|]. apply Rmult_le_compat_r; [exact W|lra].
  - intros j m Hj Hm F. cbv zeta. replace (8 * PI ^ 2)%R with (8 * PI * PI)%R by ring. fold (cpsi l).
    destruct (NB j l m Hj Hl Hm F) as (A & B & v & C & D). split; [exact A|]. split; [exact B|]. rewrite D.
    unfold s_arr. rewrite get2_mk by lia. replace (L - 1 + m - (L - 1)) with m by lia. rewrite (sd_nu N l m).
    set (w := (cpsi l * B2R (get2 kpsi j l))%R) in *. set (r := Cmod (sd N l m)) in *.
    replace (Cmult (RtoC w) (Cmult (nu N) (RtoC r))) with (Cmult (nu N) (RtoC (w * r))) by (rewrite RtoC_mult; ring).
    assert (W : (0 <= w * r)%R) by apply C. eapply Rle_trans; [apply (apx_near ue); [lra|exact C]|]. rewrite Cmod_nur, (Rabs_pos_eq (w * r)) by exact W.
    apply Rmult_le_compat_r; [exact W|lra].
Qed.

Section BOTH.
Variables (fexp : f64 -> f64) (fpow : f64 -> Z -> f64) (flg : f64 -> f64).
Hypothesis Hg : accurate_loggamma_to 1023 flg.
Hypothesis He : relative_exp_to (7093 / 10) fexp.
Variables (J L N J_min : Z) (lam : f64) (spin : Z).
Hypothesis HL : 1 <= L <= 2 ^ 52.
Hypothesis HN : 1 <= N.
Hypothesis HS : N <= 900 \/ L <= 900.
Variables (kpsi : arr2 f64) (kphi : arr1 f64) (psi : arr3 c64) (phi : arr1 f64).

Lemma near_loop_many : filters_axisym_fp fexp fpow J L J_min lam = Ok (kpsi, kphi) ->
  filters_directional_fp fexp fpow flg J L N J_min lam spin 0 = Ok (psi, phi) -> near_many L N J J_min (Z.abs spin) psi phi kpsi kphi.
Proof.
  intros EA ED. destruct (axisym_fp_inv _ _ _ _ _ _ _ _ EA) as (HJ & Rp & Cp & Lp & Tpsi & Tphi).
  rewrite (dir_fp_ok fexp fpow flg J L N J_min lam spin 0 kpsi kphi) in ED; auto; try lia; try (unfold float_powers; lia).
  apply Ok_inj in ED. assert (P1 := f_equal fst ED). assert (P2 := f_equal snd ED). cbn [fst snd] in P1, P2. rewrite <- P1, <- P2. pose proof u1_pos. pose proof ue_pos. pose proof ud_pos. split.
  - intros l Hl F. rewrite get1_mk by lia. pose proof (Tphi l ltac:(lia)) as T. pose proof (cphi_rng l ltac:(lia)) as CR. pose proof (bpow_gt_0 radix2 (-10)).
    unfold phif. replace (el_min spin 0 <=? l) with true by (unfold el_min; zb). cbn [andb].
    destruct (feq (get1 kphi l) (fint 0)) eqn:E0; cbn [negb].
    + apply feq0 in E0; [|exact F]. rewrite E0. split; [reflexivity|]. change (B2R (fint 0)) with 0%R. rewrite Rmult_0_r. apply apx_refl; lra.
    + change (0 =? 0) with true. cbv iota. apply fa_weak with (5 / 2 * u1 + 0 + u1)%R; [lra|]. apply fa_mul; [lra|apply cphi_fa; lia|apply fa_self; [exact F|now apply rt_nonneg]|].
      rewrite Rmult_comm. destruct (rt_range _ T F) as [TA TB]. apply (nr_mul _ _ (-537) 512 (-10) 53); try lia; auto.
  - intros j l m Hj Hl Hm F. rewrite get3_mk by lia. replace (L - 1 + m - (L - 1)) with m by lia. cbv zeta.
    pose proof (Tpsi j l ltac:(lia) ltac:(lia)) as T. pose proof (cpsi_rng l ltac:(lia)) as CR. pose proof (bpow_gt_0 radix2 (-10)).
    assert (ZC : (B2R (get2 kpsi j l) = 0 \/ Cmod (sd N l m) = 0)%R -> is_finite (fst (creal (fint 0))) = true /\ is_finite (snd (creal (fint 0))) = true /\
       exists v, apx ue v (cpsi l * B2R (get2 kpsi j l) * Cmod (sd N l m)) /\ cval (creal (fint 0)) = Cmult (nu N) (RtoC v)).
    { intros Z. split; [reflexivity|]. split; [reflexivity|]. exists 0%R. split; [|apply creal0].
      replace (cpsi l * B2R (get2 kpsi j l) * Cmod (sd N l m))%R with 0%R by (destruct Z as [-> | ->]; ring). apply apx_refl; lra. }
    unfold psif. replace (J_min <=? j) with true by zb. replace (el_min spin 0 <=? l) with true by (unfold el_min; zb). cbn [andb].
    destruct (feq (get2 kpsi j l) (fint 0)) eqn:E0; cbn [negb andb].
    { apply ZC. left. now apply feq0. }
    destruct (Z.leb_spec (Z.abs m) l) as [Hml|Hml]; cbn [andb].
    2:{ apply ZC. right. unfold sd. replace (Z.abs m <=? l) with false by zb. rewrite andb_false_r. apply Cmod_0. }
    destruct (czero (sdf flg fexp N l m)) eqn:Ez; cbn [negb].
    { apply ZC. right. unfold czero in Ez. apply andb_true_iff in Ez as [Z1 Z2]. destruct (sdf_fin_many flg fexp Hg He N l m HN ltac:(intros; pose proof (gam_900 L N l HN HS ltac:(lia) ltac:(assumption)); lia)) as [F1 F2].
      apply feq0 in Z1; [|exact F1]. apply feq0 in Z2; [|exact F2]. pose proof (sdf_sq_many flg fexp Hg He N l m HN ltac:(intros; pose proof (gam_900 L N l HN HS ltac:(lia) ltac:(assumption)); lia)) as (P & Q & _).
      replace (Cmod (cval (sdf flg fexp N l m))) with 0%R in Q by (unfold cval; rewrite Z1, Z2; symmetry; apply Cmod_0).
      pose proof (exp_pos (- (2 * ud))). pose proof (Cmod_ge_0 (sd N l m)). destruct (Req_dec (Cmod (sd N l m)) 0) as [E|NE]; [exact E|].
      exfalso. assert (0 < Cmod (sd N l m) ^ 2)%R by (apply pow_lt; lra).
      assert (0 < Cmod (sd N l m) ^ 2 * exp (- (2 * ud)))%R by (now apply Rmult_lt_0_compat). lra. }
    change (0 =? 0) with true. cbv iota.
    assert (HP : fa (9 / 2 * u1) (fmul (wav_weight_fp l) (get2 kpsi j l)) (cpsi l * B2R (get2 kpsi j l))).
    { apply fa_weak with (7 / 2 * u1 + 0 + u1)%R; [lra|]. apply fa_mul; [lra|apply cpsi_fa; lia|apply fa_self; [exact F|now apply rt_nonneg]|].
      rewrite Rmult_comm. destruct (rt_range _ T F) as [TA TB]. apply (nr_mul _ _ (-537) 512 (-10) 53); try lia; auto. }
    destruct (entry_many flg fexp Hg He N l m _ _ HN (gam_900 L N l HN HS ltac:(lia)) ltac:(lia) T F HP) as (v & A & B & C & D). split; [exact B|]. split; [exact C|]. exists v. auto.
Qed.
Lemma near_vec_many : filters_axisym_vectorised_fp fexp fpow J L J_min lam = Ok (kpsi, kphi) ->
  filters_directional_vectorised_fp fexp fpow flg J L N J_min lam spin 0 = Ok (psi, phi) -> near_many L N J 0 (Z.abs spin) psi phi kpsi kphi.
Proof.
  intros EA ED. destruct (axisym_vec_fp_inv _ _ _ _ _ _ _ _ EA) as (HJ & Rp & Cp & Lp & Tpsi & Tphi).
  rewrite (dir_vec_fp_ok fexp fpow flg J L N J_min lam spin kpsi kphi) in ED; auto; try lia; try (unfold float_powers; lia).
  apply Ok_inj in ED. assert (P1 := f_equal fst ED). assert (P2 := f_equal snd ED). cbn [fst snd] in P1, P2. rewrite <- P1, <- P2.
  apply (near_psiv flg fexp Hg He); auto; lia.
Qed.
Lemma near_both_many :
  (filters_axisym_fp fexp fpow J L J_min lam = Ok (kpsi, kphi) /\ filters_directional_fp fexp fpow flg J L N J_min lam spin 0 = Ok (psi, phi)) \/
  (filters_axisym_vectorised_fp fexp fpow J L J_min lam = Ok (kpsi, kphi) /\ filters_directional_vectorised_fp fexp fpow flg J L N J_min lam spin 0 = Ok (psi, phi)) ->
  0 <= J_min < J /\ near_many L N J J_min (Z.abs spin) psi phi kpsi kphi.
Proof.
  intros [[EA ED]|[EA ED]].
  - destruct (axisym_fp_inv _ _ _ _ _ _ _ _ EA) as (HJ & _). split; [exact HJ|]. now apply near_loop_many.
  - destruct (axisym_vec_fp_inv _ _ _ _ _ _ _ _ EA) as (HJ & _). split; [exact HJ|].
    destruct (near_vec_many EA ED) as [A B]. split; [exact A|]. intros j l m Hj. apply B. lia.
Qed.
Lemma total_many l :
  (filters_axisym_fp fexp fpow J L J_min lam = Ok (kpsi, kphi) /\ filters_directional_fp fexp fpow flg J L N J_min lam spin 0 = Ok (psi, phi)) \/
  (filters_axisym_vectorised_fp fexp fpow J L J_min lam = Ok (kpsi, kphi) /\ filters_directional_vectorised_fp fexp fpow flg J L N J_min lam spin 0 = Ok (psi, phi)) ->
  Z.abs spin <= l < L -> is_finite (get1 kphi l) = true -> (forall j, J_min <= j <= J -> is_finite (get2 kpsi j l) = true) ->
  1 <= l \/ (forall j, J_min <= j <= J -> B2R (get2 kpsi j l) = 0%R) ->
  apx (2 * ue) (fp_dir_total L psi phi J_min J l) (fp_total kpsi kphi J_min J l).
Proof.
  intros HB Hl F0 F1 Hl1. destruct (near_both_many HB) as (HJ & NM). apply (total_near L N J J_min spin psi phi kpsi kphi l); auto; lia.
Qed.
End BOTH.

(*% each coefficient against the exact product of the weight, the computed kernel and the exact component *)
(*@ C86_coefficients *)
Lemma fp_dirf_acc_many : forall fexp fpow flg J L N J_min lam spin kpsi kphi psi phi s,
  accurate_loggamma_to 1023 flg -> relative_exp_to (7093 / 10) fexp -> 1 <= L <= 2 ^ 52 -> 1 <= N -> N <= 900 \/ L <= 900 ->
  (filters_axisym_fp fexp fpow J L J_min lam = Ok (kpsi, kphi) /\ filters_directional_fp fexp fpow flg J L N J_min lam spin 0 = Ok (psi, phi)) \/
  (filters_axisym_vectorised_fp fexp fpow J L J_min lam = Ok (kpsi, kphi) /\ filters_directional_vectorised_fp fexp fpow flg J L N J_min lam spin 0 = Ok (psi, phi)) ->
  tiling_direction L N = Ok s ->
  forall l, Z.abs spin <= l < L ->
    (is_finite (get1 kphi l) = true -> let w := (sqrt ((2 * IZR l + 1) / (4 * PI)) * B2R (get1 kphi l))%R in
       is_finite (get1 phi l) = true /\ (Rabs (B2R (get1 phi l) - w) <= bpow radix2 (-50) * w)%R) /\
    (forall j m, J_min <= j <= J -> Z.abs m < L -> is_finite (get2 kpsi j l) = true ->
       let w := (sqrt ((2 * IZR l + 1) / (8 * PI ^ 2)) * B2R (get2 kpsi j l))%R in
       let z := get3 psi j l (L - 1 + m) in let t := Cmult (RtoC w) (get2 s l (L - 1 + m)) in
       is_finite (fst z) = true /\ is_finite (snd z) = true /\ (Cmod (Cminus (cval z) t) <= bpow radix2 (-30) * Cmod t)%R).
Proof.
  intros fexp fpow flg J L N J_min lam spin kpsi kphi psi phi s Hg He HL HN HS HB ES l Hl.
  destruct (near_both_many fexp fpow flg Hg He J L N J_min lam spin HL HN HS _ _ _ _ HB) as (HJ & NM).
  apply (acc_near L N J J_min spin psi phi kpsi kphi s l); auto; lia.
Qed.

Lemma widen_many T t a b : (apx (2 * ue) t T)%R -> (1 - bpow radix2 (-51) <= T <= 1 + a)%R -> (0 <= a <= / 8)%R -> (bpow radix2 (-29) <= b)%R -> (1 - bpow radix2 (-29) <= t <= 1 + a + b)%R.
Proof.
  intros A HT Ha Hb. pose proof ue_pos. pose proof (apx_abs (2 * ue) _ _ ltac:(lra) A) as H1. apply Rabs_le_inv in H1.
  assert (U : (4 * ue <= 7 / 4 * / 1073741824 * (3 / 4))%R) by (unfold ue, ud, u1, eps; change (bpow radix2 (-31)) with (/ 2147483648)%R; lra).
  change (bpow radix2 (-51)) with (/ 2251799813685248)%R in *. change (bpow radix2 (-29)) with (/ 536870912)%R in *.
  assert (M : (4 * ue * T <= (7 / 4 * / 1073741824 * (3 / 4)) * (1 + / 8))%R) by (apply Rmult_le_compat; lra).
  lra.
Qed.
(*% with lam = 2 the directional filters are admissible up to the quadrature error and 2^-28 *)
(*@ C86_filters_admissible *)
Lemma fp2_adm_many : forall fexp fpow flg J L N J_min spin psi phi, 1 <= L <= 2 ^ 52 -> 1 <= N -> N <= 900 \/ L <= 900 ->
  accurate_loggamma_to 1023 flg -> relative_exp_to (7093 / 10) fexp -> accurate_exp fexp -> exact_powers fpow J -> j_max L 2 = Ok J ->
  forall l, Z.abs spin <= l < L ->
  (filters_directional_vectorised_fp fexp fpow flg J L N J_min (fint 2) spin 0 = Ok (psi, phi) ->
     (1 - bpow radix2 (-29) <= fp_dir_total L psi phi J_min J l <= 1 + quad_error 2 300 + bpow radix2 (-28))%R) /\
  (filters_directional_fp fexp fpow flg J L N J_min (fint 2) spin 0 = Ok (psi, phi) ->
     (1 - bpow radix2 (-29) <= fp_dir_total L psi phi J_min J l <= 1 + 3 * quad_error 2 300 + bpow radix2 (-28))%R).
Proof.
  intros fexp fpow flg J L N J_min spin psi phi HL HN HS Hg Hr Hf HP EJ l Hl. pose proof quad_err2.
  assert (B28 : bpow radix2 (-28) = (bpow radix2 (-29) + bpow radix2 (-29))%R) by (change (bpow radix2 (-29)) with (/ 536870912)%R; change (bpow radix2 (-28)) with (/ 268435456)%R; lra).
  split; intros ED.
  - pose proof ED as ED'. unfold filters_directional_vectorised_fp in ED'. change (negb (0 =? 0)) with false in ED'. cbv iota in ED'.
    apply bind_inv in ED' as ([kpsi kphi] & EA & _).
    destruct (fin2 fexp fpow J L J_min kpsi kphi ltac:(lia) Hf HP EJ (or_intror EA)) as (HJ & F0 & F1 & Z0).
    pose proof (fp2_adm fexp fpow J L J_min kpsi kphi ltac:(lia) Hf HP EJ EA l ltac:(lia)) as T.
    assert (A : apx (2 * ue) (fp_dir_total L psi phi J_min J l) (fp_total kpsi kphi J_min J l)).
    { apply (total_many fexp fpow flg Hg Hr J L N J_min (fint 2) spin HL HN HS kpsi kphi psi phi l (or_intror (conj EA ED)) Hl); [apply F0; lia|intros; apply F1; lia|].
      destruct (Z.eq_dec l 0) as [-> |]; [right; exact Z0|left; lia]. }
    rewrite B28, <- Rplus_assoc, (Rplus_assoc 1). rewrite (Rplus_assoc 1) in T. apply (widen_many _ (fp_dir_total L psi phi J_min J l) (quad_error 2 300 + bpow radix2 (-29)) (bpow radix2 (-29)) A).
    + change (bpow radix2 (-34)) with (/ 17179869184)%R in T. change (bpow radix2 (-29)) with (/ 536870912)%R. lra.
    + change (bpow radix2 (-29)) with (/ 536870912)%R. lra.
    + lra.
  - pose proof ED as ED'. unfold filters_directional_fp in ED'. apply bind_inv in ED' as (z & Z1 & ED'). apply bind_inv in ED' as (z' & Z2 & ED').
    apply bind_inv in ED' as ([kpsi kphi] & EA & _). clear z z' Z1 Z2.
    destruct (fin2 fexp fpow J L J_min kpsi kphi ltac:(lia) Hf HP EJ (or_introl EA)) as (HJ & F0 & F1 & Z0).
    pose proof (fp2_adm_loop fexp fpow J L J_min kpsi kphi ltac:(lia) Hf HP EJ EA l ltac:(lia)) as T.
    assert (A : apx (2 * ue) (fp_dir_total L psi phi J_min J l) (fp_total kpsi kphi J_min J l)).
    { apply (total_many fexp fpow flg Hg Hr J L N J_min (fint 2) spin HL HN HS kpsi kphi psi phi l (or_introl (conj EA ED)) Hl); [apply F0; lia|intros; apply F1; lia|].
      destruct (Z.eq_dec l 0) as [-> |]; [right; exact Z0|left; lia]. }
    rewrite B28, <- Rplus_assoc, (Rplus_assoc 1). rewrite (Rplus_assoc 1) in T. apply (widen_many _ (fp_dir_total L psi phi J_min J l) (3 * quad_error 2 300 + bpow radix2 (-29)) (bpow radix2 (-29)) A).
    + change (bpow radix2 (-32)) with (/ 4294967296)%R in T. change (bpow radix2 (-29)) with (/ 536870912)%R. lra.
    + change (bpow radix2 (-29)) with (/ 536870912)%R. lra.
    + lra.
Qed.

(*% and every coefficient is a number *)
(*@ C86_finite *)
Lemma fp2_finite_many : forall fexp fpow flg J L N J_min spin psi phi, 1 <= L <= 2 ^ 52 -> 1 <= N -> N <= 900 \/ L <= 900 ->
  accurate_loggamma_to 1023 flg -> relative_exp_to (7093 / 10) fexp -> accurate_exp fexp -> exact_powers fpow J -> j_max L 2 = Ok J ->
  filters_directional_fp fexp fpow flg J L N J_min (fint 2) spin 0 = Ok (psi, phi) \/
  filters_directional_vectorised_fp fexp fpow flg J L N J_min (fint 2) spin 0 = Ok (psi, phi) ->
  forall l, Z.abs spin <= l < L ->
    is_finite (get1 phi l) = true /\
    forall j m, J_min <= j <= J -> Z.abs m < L -> is_finite (fst (get3 psi j l (L - 1 + m))) = true /\ is_finite (snd (get3 psi j l (L - 1 + m))) = true.
Proof.
  intros fexp fpow flg J L N J_min spin psi phi HL HN HS Hg Hr Hf HP EJ ED l Hl.
  assert (X : exists kpsi kphi, (filters_axisym_fp fexp fpow J L J_min (fint 2) = Ok (kpsi, kphi) \/ filters_axisym_vectorised_fp fexp fpow J L J_min (fint 2) = Ok (kpsi, kphi)) /\
    near_many L N J J_min (Z.abs spin) psi phi kpsi kphi).
  { destruct ED as [ED|ED].
    - pose proof ED as ED'. unfold filters_directional_fp in ED'. apply bind_inv in ED' as (z & Z1 & ED'). apply bind_inv in ED' as (z' & Z2 & ED').
      apply bind_inv in ED' as ([kpsi kphi] & EA & _). exists kpsi, kphi. split; [left; exact EA|].
      apply (near_both_many fexp fpow flg Hg Hr J L N J_min (fint 2) spin HL HN HS kpsi kphi psi phi (or_introl (conj EA ED))).
    - pose proof ED as ED'. unfold filters_directional_vectorised_fp in ED'. change (negb (0 =? 0)) with false in ED'. cbv iota in ED'.
      apply bind_inv in ED' as ([kpsi kphi] & EA & _). exists kpsi, kphi. split; [right; exact EA|].
      apply (near_both_many fexp fpow flg Hg Hr J L N J_min (fint 2) spin HL HN HS kpsi kphi psi phi (or_intror (conj EA ED))). }
  destruct X as (kpsi & kphi & EA & NA & NB).
  destruct (fin2 fexp fpow J L J_min kpsi kphi ltac:(lia) Hf HP EJ EA) as (HJ & F0 & F1 & _). split.
  - apply (NA l Hl (F0 l ltac:(lia))).
  - intros j m Hj Hm. destruct (NB j l m Hj Hl Hm (F1 j l Hj ltac:(lia))) as (A & B & _). split; [exact A|exact B].
Qed.
Lemma to_f64_many x : (0 <= x <= 7 / 4 * bpow radix2 1023)%R ->
  is_finite (to_f64 x) = true /\ (0 <= B2R (to_f64 x))%R /\ (Rabs (B2R (to_f64 x) - x) <= bpow radix2 (-61) + eps * (x + bpow radix2 (-61)))%R /\
  (x = 0 -> B2R (to_f64 x) = 0)%R.
Proof.
  intros [H0 H1]. unfold to_f64. set (N := ZnearestE (x * bpow radix2 60)).
  assert (HN : (Rabs (IZR N - x * bpow radix2 60) <= / 2)%R) by (rewrite Rabs_minus_sym; apply (Znearest_half (fun t => negb (Z.even t)))).
  apply Rabs_le_inv in HN. assert (B60 : bpow radix2 60 = 1152921504606846976%R) by reflexivity.
  assert (BM : bpow radix2 (-60) = (/ 1152921504606846976)%R) by reflexivity. assert (BN : bpow radix2 (-61) = (/ 2305843009213693952)%R) by reflexivity.
  assert (N0 : 0 <= N).
  { assert (A : (-1 < IZR N)%R) by (rewrite B60 in HN; lra). apply (lt_IZR (-1)) in A. lia. }
  pose proof (binary_normalize_correct 53 1024 gt53 lt53 mode_NE N (-60) false) as H. cbv zeta in H.
  assert (E : F2R (Float radix2 N (-60)) = (IZR N * bpow radix2 (-60))%R) by reflexivity. rewrite E in H. set (v := (IZR N * bpow radix2 (-60))%R) in *.
  assert (HV : (Rabs (v - x) <= bpow radix2 (-61))%R) by (unfold v; rewrite BM, BN; rewrite B60 in HN; apply Rabs_le; lra).
  assert (V0 : (0 <= v)%R) by (unfold v; apply Rmult_le_pos; [now apply IZR_le|apply bpow_ge_0]).
  assert (VX : (v <= x + bpow radix2 (-61))%R) by (apply Rabs_le_inv in HV; lra).
  assert (VB : (v <= 15 * bpow radix2 1020)%R).
  { replace (bpow radix2 1023) with (8 * bpow radix2 1020)%R in H1 by (change 1023 with (3 + 1020); rewrite bpow_plus; reflexivity).
    assert (bpow radix2 0 <= bpow radix2 1020)%R by (apply bpow_le; lia). change (bpow radix2 0) with 1%R in *. lra. }
  assert (R0 : (0 <= rnd v)%R) by (rewrite <- rnd_0; now apply rnd_mono).
  rewrite Rlt_bool_true in H.
  2:{ rewrite Rabs_pos_eq by exact R0. apply Rle_lt_trans with (15 * bpow radix2 1020)%R.
      2:{ change 1024 with (4 + 1020). rewrite bpow_plus. change (bpow radix2 4) with 16%R. pose proof (bpow_gt_0 radix2 1020). lra. }
      rewrite <- (round_generic radix2 (SpecFloat.fexp 53 1024) (round_mode mode_NE) (15 * bpow radix2 1020)); [now apply rnd_mono|].
      apply generic_format_FLT. exists (Float radix2 15 1020); [reflexivity| |]; cbn; lia. }
  destruct H as (HVV & HF & _). split; [exact HF|]. rewrite HVV. split; [exact R0|]. split.
  - assert (HR : (Rabs (rnd v - v) <= eps * v)%R).
    { destruct (Z.eq_dec N 0) as [Z0|NZ].
      - unfold v. rewrite Z0, Rmult_0_l. rewrite rnd_0, Rminus_0_r, Rabs_R0. lra.
      - rewrite <- (Rabs_pos_eq v V0) at 3. apply rnd_rel. rewrite Rabs_pos_eq by exact V0. apply Rle_trans with (bpow radix2 (-60)); [apply bpow_le; lia|].
        unfold v. rewrite <- (Rmult_1_l (bpow radix2 (-60))) at 1. apply Rmult_le_compat_r; [apply bpow_ge_0|]. apply IZR_le. lia. }
    replace (rnd v - x)%R with ((rnd v - v) + (v - x))%R by ring. eapply Rle_trans; [apply Rabs_triang|].
    assert (eps * v <= eps * (x + bpow radix2 (-61)))%R by (apply Rmult_le_compat_l; [unfold eps; lra|exact VX]). lra.
  - intros X0. assert (NN : N = 0) by (unfold N; rewrite X0, Rmult_0_l; apply (Zrnd_IZR ZnearestE 0)). unfold v. rewrite NN, Rmult_0_l. apply rnd_0.
Qed.
Lemma exp709 : (exp (7093 / 10) <= 7 / 4 * bpow radix2 1023)%R.
Proof.
  replace (7093 / 10)%R with (INR 1023 * (6929 / 10000) + 4633 / 10000)%R by (rewrite INR_IZR_INZ; change (Z.of_nat 1023) with 1023; lra).
  rewrite exp_plus, exp_npow, Rmult_comm. pose proof ln2_low as LL. pose proof (exp_pos (6929 / 10000)).
  apply Rmult_le_compat; [left; apply exp_pos|left; now apply pow_lt| |].
  - replace (4633 / 10000)%R with (- (- (4633 / 80000) * 8))%R by lra. rewrite exp_Ropp. replace (7 / 4)%R with (/ (4 / 7))%R by lra. apply Rinv_le_contravar; [lra|].
    replace (- (4633 / 80000) * 8)%R with (INR 8 * (- (4633 / 80000)))%R by (rewrite INR_IZR_INZ; change (Z.of_nat 8) with 8; ring). rewrite exp_npow.
    pose proof (exp_ineq1_le (- (4633 / 80000))). apply Rle_trans with ((75367 / 80000) ^ 8)%R; [lra|apply pow_incr; lra].
  - apply Rle_trans with (2 ^ 1023)%R; [apply pow_incr; lra|].
    right. change 1023 with (Z.of_nat 1023). rewrite bpow_powerRZ. change (IZR radix2) with 2%R. now rewrite pow_powerRZ.
Qed.
Lemma near_relative_many : relative_exp_to (7093 / 10) near_exp.
Proof.
  intros x F [H1 H2]. unfold near_exp. set (y := exp (B2R x)).
  assert (L1 : (/ 4 <= y)%R).
  { apply Rle_trans with (exp (- (1))); [|apply exp_mono; lra]. rewrite exp_Ropp. apply Rinv_le_contravar; [apply exp_pos|]. pose proof exp_le_3. lra. }
  assert (L2 : (y <= 7 / 4 * bpow radix2 1023)%R) by (apply Rle_trans with (exp (7093 / 10)); [apply exp_mono; lra|apply exp709]).
  destruct (to_f64_many y ltac:(lra)) as (A & _ & B & _). split; [exact A|]. eapply Rle_trans; [exact B|]. unfold eps.
  change (bpow radix2 (-61)) with (/ 2305843009213693952)%R. change (bpow radix2 (-47)) with (/ 140737488355328)%R. lra.
Qed.
Lemma near_loggamma_many : accurate_loggamma_to 1023 near_lg.
Proof.
  intros n Hn. cbv zeta. unfold near_lg. rewrite fint_B2R by lia. rewrite Zfloor_IZR. replace (Z.to_nat (Z.of_nat n + 1 - 1)) with n by lia.
  set (y := ln (INR (fact n))). assert (L2 : (y <= 8184)%R) by (now apply ln_fact_many).
  assert (L1 : y = 0%R \/ (/ 2 <= y)%R).
  { unfold y. destruct n as [|[|n]]; [left; apply ln_1|left; apply ln_1|]. right. apply Rle_trans with (ln 2).
    - rewrite <- (ln_exp (/ 2)). apply ln_le; [apply exp_pos|]. apply Rsqr_incr_0_var; [|lra]. unfold Rsqr. rewrite <- exp_plus.
      replace (/ 2 + / 2)%R with 1%R by field. pose proof exp_le_3. lra.
    - apply ln_le; [lra|]. replace 2%R with (INR 2) by reflexivity. apply le_INR. change 2%nat with (fact 2). apply fact_le. lia. }
  destruct (to_f64_ok y) as (A & _ & B & C).
  { split; [destruct L1; lra|]. apply Rle_trans with (bpow radix2 13); [change (bpow radix2 13) with 8192%R; lra|apply bpow_le; lia]. }
  split; [exact A|]. destruct L1 as [L1|L1].
  - rewrite C by exact L1. rewrite L1, Rminus_0_r, Rabs_R0. pose proof (bpow_ge_0 radix2 (-47)). lra.
  - eapply Rle_trans; [exact B|]. unfold eps.
    change (bpow radix2 (-61)) with (/ 2305843009213693952)%R. change (bpow radix2 (-47)) with (/ 140737488355328)%R. lra.
Qed.


(*% lam = 2, L = 5, N = 64, spin 1: a library meets all the hypotheses, and the filters are returned; the component with 1024 directions is normalised *)
(*@E C86_example *)
Lemma ex_fp_many : exists fexp fpow flg psi phi vpsi vphi, accurate_loggamma_to 1023 flg /\ relative_exp_to (7093 / 10) fexp /\ accurate_exp fexp /\ exact_powers fpow 3 /\ j_max 5 2 = Ok 3 /\
  filters_directional_fp fexp fpow flg 3 5 64 0 (fint 2) 1 0 = Ok (psi, phi) /\
  filters_directional_vectorised_fp fexp fpow flg 3 5 64 0 (fint 2) 1 0 = Ok (vpsi, vphi) /\
  (999 / 1000 <= fp_dir_total 5 vpsi vphi 0 3 2 <= 1 + 1 / 100)%R /\ is_finite (get1 vphi 2) = true /\
  (Rabs (B2R (binomial_fp flg fexp 1023 (fint 500)) - Binomial.C 1023 500) <= bpow radix2 (-31) * Binomial.C 1023 500)%R /\
  exists s, tiling_direction_fp flg fexp 1030 1024 = Ok s /\ (Rabs (sumZ (- 1029) 1030 (fun m => Cmod (cval (get2 s 1029 (1029 + m))) ^ 2) - 1) <= bpow radix2 (-29))%R.
Proof.
  destruct j_max_5_2 as (EJ & _). pose proof (pow2_exact_powers 3 ltac:(lia)) as HP.
  destruct (fp2_dirf_total near_exp pow2 near_lg 3 5 64 0 1 0 ltac:(lia) ltac:(left; lia) ltac:(lia) HP) as [([psi phi] & E1) ([vpsi vphi] & E2)].
  destruct (fp2_adm_many near_exp pow2 near_lg 3 5 64 0 1 vpsi vphi ltac:(lia) ltac:(lia) ltac:(lia) near_loggamma_many near_relative_many near_accurate HP EJ 2 ltac:(lia)) as [T _]. specialize (T E2).
  pose proof (fp2_finite_many near_exp pow2 near_lg 3 5 64 0 1 vpsi vphi ltac:(lia) ltac:(lia) ltac:(lia) near_loggamma_many near_relative_many near_accurate HP EJ (or_intror E2) 2 ltac:(lia)) as [F _].
  exists near_exp, pow2, near_lg, psi, phi, vpsi, vphi. split; [apply near_loggamma_many|]. split; [apply near_relative_many|]. split; [apply near_accurate|].
  split; [exact HP|]. split; [exact EJ|]. split; [exact E1|]. split; [exact E2|]. split; [|split; [exact F|]].
  - pose proof quad_err2. change (bpow radix2 (-29)) with (/ 536870912)%R in T. change (bpow radix2 (-28)) with (/ 268435456)%R in T. lra.
  - split; [apply (fp_binomial_many near_lg near_exp 1023 500 near_loggamma_many near_relative_many ltac:(lia))|].
    destruct (fp_dir_many near_lg near_exp 1030 1024 near_loggamma_many near_relative_many ltac:(lia) ltac:(lia) ltac:(left; lia)) as (s & _ & E & _).
    exists s. split; [exact E|]. exact (fp_dir_many_norm near_lg near_exp 1030 1024 s near_loggamma_many near_relative_many ltac:(lia) ltac:(lia) E 1029 ltac:(lia)).
Qed.
