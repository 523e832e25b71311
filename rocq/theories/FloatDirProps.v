(** Statements and proofs for PropertiesFloatDir.v *)

From Coq Require Import ZArith Reals List Bool Lia Lra Psatz Factorial.
From Coquelicot Require Import Rcomplements Complex.
From Flocq Require Import Core Relative IEEE754.BinarySingleNaN.
From Verif Require Import Py PyFacts ModelSamples SamplesFacts SamplesProps ModelFilters FiltersFacts DirectionFacts DirFilterFacts Spec SpecQuad FiltersProps.
From Verif Require Import ModelFloat ModelFloatDir FloatProps SpecFp SpecFpDir FloatFacts FloatFilterProps FloatDefault FloatDirFacts.
Import ListNotations.
Open Scope Z_scope.

(*T Binomial coefficients and the directional component in binary64 *)
(*! From Coq Require Import ZArith Reals List Bool. *)
(*! From Coquelicot Require Import Complex. *)
(*! From Flocq Require Import Core IEEE754.BinarySingleNaN. *)
(*! Import ListNotations. *)
(*! From Verif Require Import Py ModelSamples ModelFilters ModelFloat ModelFloatDir Spec SpecQuad SpecFp SpecFpDir. *)

(** ** the binomial coefficient *)
Lemma tri_le n : forall k, (pascal_tri n k <= 2 ^ n)%nat.
Proof.
  induction n as [|n IH]; intros [|k]; cbn [pascal_tri]; try (cbn; lia).
  - pose proof (Nat.pow_nonzero 2 (S n)). lia.
  - cbn [Nat.pow]. pose proof (IH k). pose proof (IH (S k)). lia.
Qed.
Lemma exp_npow n x : exp (INR n * x) = (exp x ^ n)%R.
Proof. induction n as [|n IH]; [simpl; rewrite Rmult_0_l; apply exp_0|]. rewrite S_INR, Rmult_plus_distr_r, Rmult_1_l, exp_plus, IH. simpl. ring. Qed.
Lemma ln40 : (ln 40 <= 4)%R.
Proof.
  rewrite <- (ln_exp 4). apply ln_le; [lra|].
  assert (E : exp 4 = (exp (/ 8) ^ 32)%R). { rewrite <- exp_npow. f_equal. simpl. field. }
  assert (H : ((9 / 8) ^ 32 <= exp (/ 8) ^ 32)%R). { apply pow_incr. pose proof (exp_ineq1_le (/ 8)). lra. }
  rewrite E. lra.
Qed.
Lemma ln_fact n : (n <= 40)%nat -> (0 <= ln (INR (fact n)) <= 160)%R.
Proof.
  intros Hn.
  assert (H : forall m, (m <= 40)%nat -> (0 <= ln (INR (fact m)) <= INR m * 4)%R).
  { induction m as [|m IH]; intros Hm.
    - cbn. rewrite ln_1. lra.
    - rewrite fact_simpl, mult_INR, ln_mult; [|apply lt_0_INR; lia|apply fact_posR]. specialize (IH ltac:(lia)).
      assert (0 <= ln (INR (S m)) <= 4)%R; [|rewrite S_INR in *; lra]. split.
      + rewrite <- ln_1. apply ln_le; [lra|]. replace 1%R with (INR 1) by reflexivity. apply le_INR. lia.
      + apply Rle_trans with (2 := ln40). apply ln_le; [apply lt_0_INR; lia|]. replace 40%R with (INR 40) by (simpl; lra). apply le_INR. lia. }
  specialize (H n Hn). assert (INR n <= 40)%R by (replace 40%R with (INR 40) by (simpl; lra); apply le_INR; lia). lra.
Qed.
Lemma ln_tri n k : (k <= n)%nat -> ln (INR (fact n)) = (ln (INR (pascal_tri n k)) + ln (INR (fact k)) + ln (INR (fact (n - k))))%R.
Proof.
  intros H. rewrite <- (tri_fact n k H), !mult_INR.
  assert (0 < INR (pascal_tri n k))%R by (apply lt_0_INR; pose proof (tri_pos n k H); lia).
  pose proof (fact_posR k). pose proof (fact_posR (n - k)). rewrite !ln_mult; auto; [ring|]. now apply Rmult_lt_0_compat.
Qed.

#[local] Existing Instance gt53.
#[local] Instance vexp : Valid_exp (SpecFloat.fexp 53 1024). Proof. exact (@fexp_correct 53 1024 gt53). Qed.
#[local] Instance mexp : Monotone_exp (SpecFloat.fexp 53 1024).
Proof. change (SpecFloat.fexp 53 1024) with (FLT_exp (-1074) 53). typeclasses eauto. Qed.
Lemma rnd_abs_pow x (p : Z) : 0 <= p <= 900 -> (Rabs x <= bpow radix2 p)%R -> (Rabs (rnd x - x) <= eps * bpow radix2 p)%R.
Proof.
  intros Hp H. pose proof (error_le_half_ulp radix2 (SpecFloat.fexp 53 1024) (fun z => negb (Z.even z)) x) as G.
  change (Rabs (rnd x - x) <= / 2 * ulp radix2 (SpecFloat.fexp 53 1024) x)%R in G.
  assert (U : (ulp radix2 (SpecFloat.fexp 53 1024) x <= ulp radix2 (SpecFloat.fexp 53 1024) (bpow radix2 p))%R).
  { apply ulp_le; [typeclasses eauto|typeclasses eauto|].
    rewrite (Rabs_pos_eq (bpow radix2 p)) by apply bpow_ge_0. exact H. }
  rewrite ulp_bpow in U. replace (SpecFloat.fexp 53 1024 (p + 1)) with (p - 52) in U by (unfold SpecFloat.fexp, SpecFloat.emin; lia).
  unfold Z.sub in U. rewrite bpow_plus in U. change (bpow radix2 (- (52))) with (/ 4503599627370496)%R in U.
  pose proof (bpow_gt_0 radix2 p). unfold eps. lra.
Qed.

Lemma fint_eq (x : f64) z : z <> 0 -> Z.abs z <= 2 ^ 53 -> is_finite x = true -> B2R x = IZR z -> x = fint z.
Proof.
  intros Hz Ha F E. destruct (fint_ok z Ha) as [F' E']. apply B2R_inj.
  - destruct x; try discriminate; try reflexivity. cbn in E. apply (eq_IZR 0) in E. lia.
  - destruct (fint z); try discriminate; try reflexivity. cbn in E'. apply (eq_IZR 0) in E'. lia.
  - congruence.
Qed.
Lemma fint_add (x : f64) a b : 0 <= a <= 1100 -> 0 <= b <= 900 -> a + b <> 0 -> is_finite x = true -> B2R x = IZR a -> fadd x (fint b) = fint (a + b).
Proof.
  intros Ha Hb Hs F E. destruct (fint_ok b ltac:(lia)) as [Fb Eb].
  assert (R : rnd (B2R x + B2R (fint b)) = IZR (a + b)) by (rewrite E, Eb, <- plus_IZR; apply rnd_Z; lia).
  destruct (fadd_ok x (fint b) F Fb) as [F' E'].
  - rewrite R, <- abs_IZR. apply Rle_lt_trans with (bpow radix2 11); [change (bpow radix2 11) with 2048%R; apply IZR_le; lia|apply bpow_lt; lia].
  - apply fint_eq; [lia|lia|exact F'|]. now rewrite E'.
Qed.
Lemma ffloor_ok x : is_finite x = true -> is_finite (ffloor x) = true /\ B2R (ffloor x) = IZR (Zfloor (B2R x)).
Proof.
  intros F. destruct (@Bnearbyint_correct 53 1024 lt53 mode_DN x) as (A & B & _). change (Bnearbyint mode_DN x) with (ffloor x) in A, B.
  split; [congruence|]. rewrite A. unfold round, scaled_mantissa, cexp, FIX_exp, F2R. cbn [Fnum Fexp round_mode Z.opp]. change (bpow radix2 0) with 1%R.
  now rewrite !Rmult_1_r.
Qed.
Lemma half_ok : is_finite fhalf = true /\ B2R fhalf = (/ 2)%R.
Proof.
  assert (E : B2SF fhalf = SpecFloat.S754_finite false 4503599627370496 (-53)) by (vm_compute; reflexivity).
  destruct fhalf; try discriminate. cbn in E. injection E as -> -> ->. split; [reflexivity|]. cbn [B2R]. unfold F2R. cbn. lra.
Qed.

Fixpoint zfact (n : nat) : Z := match n with O => 1 | S m => Z.of_nat n * zfact m end.
Lemma zfact_ok n : INR (fact n) = IZR (zfact n).
Proof.
  induction n as [|n IH]; [reflexivity|]. rewrite fact_simpl, mult_INR, IH. cbn [zfact]. rewrite mult_IZR, <- INR_IZR_INZ. reflexivity.
Qed.
Lemma tri_bound n k : (k <= n <= 40)%nat -> (INR (pascal_tri n k) <= 137846528820)%R.
Proof.
  intros H. assert (Q : forallb (fun n => forallb (fun k => zfact n <=? 137846528820 * (zfact k * zfact (n - k))) (seq 0 41)) (seq 0 41) = true) by (vm_compute; reflexivity).
  rewrite forallb_forall in Q. specialize (Q n). rewrite in_seq, forallb_forall in Q. specialize (Q ltac:(lia) k). rewrite in_seq in Q. specialize (Q ltac:(lia)).
  apply Z.leb_le, IZR_le in Q. rewrite !mult_IZR, <- !zfact_ok, <- (tri_fact n k (proj1 H)), !mult_INR in Q.
  pose proof (Rmult_lt_0_compat _ _ (fact_posR k) (fact_posR (n - k))) as P. apply Rmult_le_reg_r with (1 := P). lra.
Qed.

Lemma binom_exact_fp flg fexp (n k : nat) (x : f64) : accurate_loggamma flg -> relative_exp fexp -> (k <= n <= 40)%nat ->
  is_finite x = true -> B2R x = IZR (Z.of_nat k) ->
  is_finite (binomial_fp flg fexp (Z.of_nat n) x) = true /\
  B2R (binomial_fp flg fexp (Z.of_nat n) x) = INR (pascal_tri n k).
Proof.
  intros Hg He Hk Fx Ex. unfold binomial_fp.
  rewrite (fint_add x (Z.of_nat k) 1) by (auto; lia).
  assert (Hs : is_finite (fsub (fint (Z.of_nat n)) x) = true /\ B2R (fsub (fint (Z.of_nat n)) x) = IZR (Z.of_nat (n - k))).
  { destruct (fint_ok (Z.of_nat n) ltac:(lia)) as [Fn En].
    assert (R : rnd (B2R (fint (Z.of_nat n)) - B2R x) = IZR (Z.of_nat (n - k))).
    { rewrite En, Ex, <- minus_IZR. rewrite rnd_Z by lia. f_equal. lia. }
    destruct (fsub_ok (fint (Z.of_nat n)) x Fn Fx) as [F E]; [|split; [exact F|congruence]].
    rewrite R, <- abs_IZR. apply Rle_lt_trans with (bpow radix2 11); [change (bpow radix2 11) with 2048%R; apply IZR_le; lia|apply bpow_lt; lia]. }
  destruct Hs as [Fs Es]. rewrite (fint_add _ (Z.of_nat (n - k)) 1) by (auto; lia).
  destruct (Hg n ltac:(lia)) as [Fa Aa]. destruct (Hg k ltac:(lia)) as [Fb Ab]. destruct (Hg (n - k)%nat ltac:(lia)) as [Fc Ac].
  set (ya := flg (fint (Z.of_nat n + 1))) in *. set (yb := flg (fint (Z.of_nat k + 1))) in *. set (yc := flg (fint (Z.of_nat (n - k) + 1))) in *.
  pose proof (ln_tri n k ltac:(lia)) as LT. pose proof (ln_fact n ltac:(lia)) as La. pose proof (ln_fact k ltac:(lia)) as Lb. pose proof (ln_fact (n - k) ltac:(lia)) as Lc.
  set (a := ln (INR (fact n))) in *. set (b := ln (INR (fact k))) in *. set (c := ln (INR (fact (n - k)))) in *.
  set (t := INR (pascal_tri n k)) in *.
  assert (Ht : (1 <= t <= 137846528820)%R).
  { unfold t. split; [|now apply tri_bound]. replace 1%R with (INR 1) by reflexivity. apply le_INR. apply tri_pos. lia. }
  assert (Hl : (0 <= ln t)%R) by (rewrite <- ln_1; apply ln_le; lra).
  change (bpow radix2 (-47)) with (/ 140737488355328)%R in *. apply Rabs_le_inv in Aa, Ab, Ac.
  (* the first difference *)
  assert (S1 : (Rabs (B2R ya - B2R yb) <= bpow radix2 8)%R) by (change (bpow radix2 8) with 256%R; apply Rabs_le; lra).
  pose proof (rnd_abs_pow _ 8 ltac:(lia) S1) as E1. change (bpow radix2 8) with 256%R in S1, E1. apply Rabs_le_inv in S1, E1.
  assert (Hep : eps = (/ 9007199254740992)%R) by reflexivity. rewrite Hep in E1.
  assert (BIG : forall v, (Rabs v <= 2 ^ 42)%R -> (Rabs v < bpow radix2 1024)%R).
  { intros v Hv. apply Rle_lt_trans with (1 := Hv). replace (2 ^ 42)%R with (bpow radix2 42) by (cbn; lra). apply bpow_lt. lia. }
  destruct (fsub_ok ya yb Fa Fb) as [Fd Ed]; [apply BIG, Rabs_le; lra|]. set (d := fsub ya yb) in *.
  assert (S2 : (Rabs (B2R d - B2R yc) <= bpow radix2 8)%R) by (change (bpow radix2 8) with 256%R; apply Rabs_le; lra).
  pose proof (rnd_abs_pow _ 8 ltac:(lia) S2) as E2. change (bpow radix2 8) with 256%R in S2, E2. apply Rabs_le_inv in S2, E2. rewrite Hep in E2.
  destruct (fsub_ok d yc Fd Fc) as [Fy Ey]; [apply BIG, Rabs_le; lra|]. set (y := fsub d yc) in *.
  set (r := (B2R y - ln t)%R). assert (Hr : (Rabs r <= 21300 * eps)%R) by (unfold r; rewrite Hep; apply Rabs_le; lra).
  apply Rabs_le_inv in Hr. rewrite Hep in Hr.
  assert (Hlt : (ln t <= 28)%R).
  { apply Rle_trans with (ln (2 ^ 40)); [apply ln_le; lra|]. rewrite ln_pow by lra. replace (INR 40) with 40%R by (simpl; lra).
    pose proof (ln_le 2 (exp (7 / 10)))%R as H. rewrite ln_exp in H. 
    assert (exp (7 / 10) = exp (/ 100) ^ 70)%R. { rewrite <- exp_npow. f_equal. rewrite INR_IZR_INZ. change (Z.of_nat 70) with 70. lra. }
    assert ((1 + / 100) ^ 70 <= exp (/ 100) ^ 70)%R. { apply pow_incr. pose proof (exp_ineq1_le (/ 100)). lra. }
    assert (2 <= (1 + / 100) ^ 70)%R by lra.
    lra. }
  destruct (He y Fy) as [Fe Ae]; [unfold r in Hr; lra|].
  change (bpow radix2 (-47)) with (/ 140737488355328)%R in Ae.
  assert (EX : exp (B2R y) = (t * exp r)%R). { unfold r. unfold Rminus. rewrite exp_plus, exp_Ropp, exp_ln by lra. field. lra. }
  rewrite EX in Ae.
  assert (RU : (exp r <= 1 + 21400 * / 9007199254740992)%R).
  { apply Rle_trans with (exp (21300 * / 9007199254740992)); [apply exp_mono; lra|].
    replace (21300 * / 9007199254740992)%R with (- - (21300 * / 9007199254740992))%R by ring. rewrite exp_Ropp.
    apply Rle_trans with (/ (1 - 21300 * / 9007199254740992))%R.
    - apply Rinv_le_contravar; [lra|]. pose proof (exp_ineq1_le (- (21300 * / 9007199254740992))). lra.
    - apply Rmult_le_reg_r with (1 - 21300 * / 9007199254740992)%R; [lra|]. rewrite Rinv_l by lra. lra. }
  assert (RL : (1 - 21300 * / 9007199254740992 <= exp r)%R) by (pose proof (exp_ineq1_le r); lra).
  set (w := exp r) in *. set (v := B2R (fexp y)) in *.
  assert (TW : (Rabs (t * w - t) <= t * (21400 * / 9007199254740992))%R).
  { replace (t * w - t)%R with (t * (w - 1))%R by ring. rewrite Rabs_mult, (Rabs_pos_eq t) by lra. apply Rmult_le_compat_l; [lra|]. apply Rabs_le. lra. }
  apply Rabs_le_inv in TW, Ae.
  assert (V : (t - 45 / 100 <= v <= t + 45 / 100)%R) by lra.
  destruct half_ok as [Fh Eh].
  assert (S3 : (Rabs (B2R fhalf + v) <= bpow radix2 41)%R) by (rewrite Eh; change (bpow radix2 41) with 2199023255552%R; apply Rabs_le; lra).
  pose proof (rnd_abs_pow _ 41 ltac:(lia) S3) as E3. change (bpow radix2 41) with 2199023255552%R in S3, E3. rewrite Hep in E3. rewrite Eh in E3, S3. apply Rabs_le_inv in S3, E3.
  destruct (fadd_ok fhalf (fexp y) Fh Fe) as [Fz Ez]; [rewrite Eh; fold v; apply BIG, Rabs_le; lra|]. rewrite Eh in Ez. fold v in Ez.
  destruct (ffloor_ok _ Fz) as [FF EF]. split; [exact FF|]. rewrite EF, Ez.
  unfold t. rewrite INR_IZR_INZ. f_equal. apply Zfloor_imp. rewrite plus_IZR, <- INR_IZR_INZ. fold t. lra.
Qed.

(*% ** C65: binomial coefficients and the directional component *)

(*@ C65_binomial_exact *)
Lemma fp_binomial : forall flg fexp (n k : nat), accurate_loggamma flg -> relative_exp fexp -> (k <= n <= 40)%nat ->
  let b := binomial_fp flg fexp (Z.of_nat n) (fint (Z.of_nat k)) in
  is_finite b = true /\ B2R b = Binomial.C n k.
Proof.
  intros flg fexp n k Hg He Hk. cbv zeta. rewrite <- tri_C by lia. destruct (fint_ok (Z.of_nat k) ltac:(lia)) as [F E].
  now apply binom_exact_fp.
Qed.

Lemma odd_big z (x : f64) : Z.odd z = true -> 2 ^ 53 < z -> B2R x <> IZR z.
Proof.
  intros Ho Hz E. pose proof (fmt x) as G. rewrite E in G. apply FLT_format_generic in G; [|exact eq_refl].
  destruct G as [[m e] G1 G2 G3]. cbn [Fnum Fexp] in *. unfold F2R in G1. cbn [Fnum Fexp] in G1.
  change (Zpower radix2 53) with (2 ^ 53) in G2.
  destruct (Z_le_gt_dec e 0) as [H|H].
  - assert (P : (bpow radix2 e <= 1)%R) by (change 1%R with (bpow radix2 0); apply bpow_le; lia). pose proof (bpow_gt_0 radix2 e).
    assert (A : (IZR z <= IZR (Z.abs m))%R).
    { rewrite G1. apply Rle_trans with (IZR (Z.abs m) * bpow radix2 e)%R.
      - apply Rmult_le_compat_r; [lra|]. apply IZR_le. lia.
      - rewrite <- (Rmult_1_r (IZR (Z.abs m))) at 2. apply Rmult_le_compat_l; [apply IZR_le; lia|exact P]. }
    apply le_IZR in A. lia.
  - assert (E2 : z = 2 * (m * 2 ^ (e - 1))).
    { apply eq_IZR. rewrite G1, !mult_IZR. change 2 with (radix_val radix2) at 2. rewrite IZR_Zpower by lia.
      replace e with (1 + (e - 1)) at 1 by lia. rewrite bpow_plus. change (bpow radix2 1) with 2%R. ring. }
    rewrite E2, Z.odd_mul in Ho. discriminate.
Qed.
(*% with more than 53 bits the result cannot be exact, whatever the library *)
(*@ C65_binomial_inexact *)
Lemma fp_binomial_inexact : forall flg fexp, B2R (binomial_fp flg fexp 63 (fint 31)) <> Binomial.C 63 31.
Proof.
  intros flg fexp. replace (Binomial.C 63 31) with (IZR 916312070471295267); [apply odd_big; [reflexivity|lia]|].
  unfold Binomial.C. rewrite !zfact_ok, <- mult_IZR. change (63 - 31)%nat with 32%nat.
  apply Rmult_eq_reg_r with (IZR (zfact 31 * zfact 32)); [|apply not_0_IZR; vm_compute; discriminate].
  unfold Rdiv. rewrite Rmult_assoc, Rinv_l by (apply not_0_IZR; vm_compute; discriminate). rewrite Rmult_1_r, <- mult_IZR. f_equal.
Qed.

(** *** closed form of the directional component *)
Definition nuf (N : Z) (r : f64) : c64 := if negb (N mod 2 =? 0) then creal (fmul (fint 1) r) else cmul (fint 0, fint 1) (creal r).
Definition rdir (flg fexp : f64 -> f64) (N el m : Z) : f64 :=
  fsqrt (fdiv (binomial_fp flg fexp (gam N el) (fdiv (fint (gam N el - m)) (fint 2))) (fint (2 ^ gam N el))).
Definition sdf (flg fexp : f64 -> f64) (N el m : Z) : c64 :=
  if (1 <=? el) && (Z.abs m <=? el) && dmask N m then nuf N (rdir flg fexp N el m) else creal (fint 0).
Definition sf_arr flg fexp (L N : Z) : arr2 c64 := mk2 L (2 * L - 1) (fun el q => sdf flg fexp N el (q - (L - 1))).

Lemma pyfloat_pow g : 0 <= g < 1024 -> pyfloat (2 ^ g) = Ok (fint (2 ^ g)).
Proof.
  intros Hg. unfold pyfloat. enough (is_finite (fint (2 ^ g)) = true) as -> by reflexivity.
  pose proof (binary_normalize_correct 53 1024 gt53 lt53 mode_NE (2 ^ g) 0 false) as H. cbv zeta in H.
  assert (E : F2R (Float radix2 (2 ^ g) 0) = bpow radix2 g).
  { unfold F2R. cbn [Fnum Fexp]. change (bpow radix2 0) with 1%R. rewrite Rmult_1_r. change 2 with (radix_val radix2). now rewrite IZR_Zpower. }
  rewrite E, round_generic in H; [|apply _|apply generic_format_bpow; unfold SpecFloat.fexp, SpecFloat.emin; lia].
  rewrite Rlt_bool_true in H by (rewrite Rabs_pos_eq by apply bpow_ge_0; apply bpow_lt; lia). apply H.
Qed.
Lemma pyfloat_big g : 1024 <= g -> pyfloat (2 ^ g) = Err OverflowError.
Proof.
  intros Hg. unfold pyfloat. enough (is_finite (fint (2 ^ g)) = false) as -> by reflexivity.
  pose proof (binary_normalize_correct 53 1024 gt53 lt53 mode_NE (2 ^ g) 0 false) as H. cbv zeta in H.
  assert (E : F2R (Float radix2 (2 ^ g) 0) = bpow radix2 g).
  { unfold F2R. cbn [Fnum Fexp]. change (bpow radix2 0) with 1%R. rewrite Rmult_1_r. change 2 with (radix_val radix2). rewrite IZR_Zpower by lia. reflexivity. }
  rewrite E, round_generic in H; [|apply _|apply generic_format_bpow; unfold SpecFloat.fexp, SpecFloat.emin; lia].
  rewrite Rlt_bool_false in H by (rewrite Rabs_pos_eq by apply bpow_ge_0; apply bpow_le; lia).
  change (binary_normalize 53 1024 gt53 lt53 mode_NE (2 ^ g) 0 false) with (fint (2 ^ g)) in H.
  destruct (fint (2 ^ g)); try reflexivity; discriminate.
Qed.
Lemma gam_fits L N el : float_powers L N -> 1 <= el < L -> gam N el < 1024.
Proof.
  intros H He. unfold gam. destruct (Z.eqb_spec ((N + el) mod 2) 0) as [E|E]; cbn [negb]; destruct H as [H|[H|[H [k Hk]]]]; try lia.
  destruct (Z.eq_dec el 1024) as [-> |]; [|lia]. exfalso. apply E. subst N. replace (2 * k + 1024) with ((k + 512) * 2) by lia. apply Z_mod_mult.
Qed.

Lemma tiling_fp_ok flg fexp L N : 1 <= L -> float_powers L N -> tiling_direction_fp flg fexp L N = Ok (sf_arr flg fexp L N).
Proof.
  intros HL HF. unfold tiling_direction_fp. rewrite zeros2_ok by lia. cbn [bind].
  rewrite (for_paint2 _ _ _ _ _
    (fun el x y => (x =? el) && ((L - 1 - el <=? y) && (y <? L + el)))
    (fun el q => sdf flg fexp N el (q - (L - 1)))); [|lia|].
  - f_equal. apply mk2_ext. intros el q Hel Hq.
    destruct (existsb _ _) eqn:E; auto. symmetry. unfold sdf.
    destruct (Z.leb_spec 1 el); simpl; auto.
    destruct (Z.leb_spec (Z.abs (q - (L - 1))) el); simpl; auto.
    exfalso. apply not_true_iff_false in E. apply E. apply existsb_zrange.
    exists el. split; [lia|]. zb.
  - intros el g Hel. fold (gam N el).
    rewrite (for_fill2_row _ _ _ el _ _ (L - 1) (fun m => sdf flg fexp N el m)); [|lia|lia|lia|lia|].
    + f_equal. apply mk2_ext. intros p q Hp Hq.
      replace (L - 1 + - el) with (L - 1 - el) by lia.
      replace (L - 1 + (el + 1)) with (L + el) by lia.
      destruct (Z.eqb_spec p el); simpl; subst; auto.
    + intros m g' Hm. fold (dmask N m). unfold sdf. destruct (dmask N m) eqn:Ed.
      * rewrite pydiv_ok by reflexivity. cbn [bind].
        rewrite pyfloat_pow by (split; [unfold dmask in Ed; apply andb_true_iff in Ed as [Ed _]; apply Z.ltb_lt in Ed; unfold gam; destruct (negb _); lia|now apply (gam_fits L)]). cbn [bind].
        destruct (Z.leb_spec 1 el); [|lia]. destruct (Z.leb_spec (Z.abs m) el); [|lia]. reflexivity.
      * rewrite andb_false_r. reflexivity.
Qed.
Lemma float_powers_dec L N : {float_powers L N} + {~ float_powers L N}.
Proof.
  unfold float_powers. destruct (Z_le_dec N 1024); [left; lia|]. destruct (Z_le_dec L 1024); [left; lia|].
  destruct (Z.eq_dec L 1025) as [-> |]; [|right; lia].
  destruct (Z.even N) eqn:E; [left|right].
  - right; right. split; [reflexivity|]. now apply Z.even_spec.
  - intros [?|[?|[_ O]]]; try lia. apply Z.even_spec in O. congruence.
Qed.
Lemma for_ok_or {S} (P : S -> Prop) E is (s : S) body : P s ->
  (forall i a, In i is -> P a -> (exists b, body i a = Ok b /\ P b) \/ body i a = Err E) ->
  (exists b, for_ is s body = Ok b /\ P b) \/ for_ is s body = Err E.
Proof.
  revert s. induction is as [|i is IH]; intros s Ps H; cbn [for_].
  - left. now exists s.
  - destruct (H i s (or_introl eq_refl) Ps) as [(b & Eb & Pb)|Eb]; rewrite Eb; cbn [bind]; [|now right].
    apply IH; [exact Pb|]. intros. apply H; [now right|assumption].
Qed.
Lemma gam_1024 L N : 1 <= L -> ~ float_powers L N -> exists k, 1 <= k < L /\ 1024 <= gam N k /\ 1025 <= N.
Proof.
  intros HL H. assert (HN : 1025 <= N) by (unfold float_powers in H; lia).
  destruct (Z_lt_dec 1025 L) as [HL'|HL'].
  - exists 1025. split; [lia|]. split; [|exact HN]. unfold gam. destruct (negb _); lia.
  - exists 1024. split; [unfold float_powers in H; lia|]. split; [|exact HN]. unfold gam. destruct (Z.eqb_spec ((N + 1024) mod 2) 0) as [E|E]; cbn [negb]; [|lia].
    exfalso. apply H. right; right. split; [unfold float_powers in H; lia|]. apply Z.even_spec. rewrite Zmod_even in E. rewrite Z.even_add in E. change (Z.even 1024) with true in E.
    destruct (Z.even N); [reflexivity|discriminate E].
Qed.
Lemma tiling_fp_err flg fexp L N : 1 <= L -> ~ float_powers L N -> tiling_direction_fp flg fexp L N = Err OverflowError.
Proof.
  intros HL H. destruct (gam_1024 L N HL H) as (k & Hk & Hg & HN). unfold tiling_direction_fp.
  rewrite zeros2_ok by lia. cbn [bind]. set (P := fun a : arr2 c64 => rows a = L /\ cols a = 2 * L - 1).
  assert (W : forall (a : arr2 c64) el m v, P a -> 1 <= el < L -> - el <= m < el + 1 -> exists b, wr2 a el (L - 1 + m) v = Ok b /\ P b).
  { intros a el m v [Pa Pb] Hel Hm. rewrite wr2_ok by lia. eexists. split; [reflexivity|]. split; cbn [rows cols mk2]; assumption. }
  assert (G0 : forall el, 1 <= el < L -> 0 <= gam N el) by (intros el Hel; unfold gam; destruct (negb _); lia).
  assert (B : forall el m (a : arr2 c64), P a -> 1 <= el < L -> - el <= m < el + 1 ->
    (if (Z.abs m <? N) && negb ((N + m) mod 2 =? 0) then gam N el < 1024 else True) ->
    exists b, (if (Z.abs m <? N) && negb ((N + m) mod 2 =? 0)
      then bind (pydiv (fint (gam N el - m)) (fint 2)) (fun k => bind (pyfloat (2 ^ gam N el)) (fun d => wr2 a el (L - 1 + m) (nuf N (fsqrt (fdiv (binomial_fp flg fexp (gam N el) k) d)))))
      else wr2 a el (L - 1 + m) (creal (fint 0))) = Ok b /\ P b).
  { intros el m a Pa Hel Hm G. destruct ((Z.abs m <? N) && _); [|now apply W].
    rewrite pydiv_ok by reflexivity. cbn [bind]. rewrite pyfloat_pow by (split; [now apply G0|exact G]). cbn [bind]. now apply W. }
  apply (for_err_only P _ _ k); [lia|split; reflexivity| |].
  - intros el a Hel Pa. fold (gam N el). apply for_ok_or; [exact Pa|]. intros m a' Hm Pa'. apply In_zrange in Hm.
    destruct (Z_lt_le_dec (gam N el) 1024) as [G|G].
    + left. apply B; auto. destruct ((Z.abs m <? N) && _); [exact G|exact I].
    + destruct ((Z.abs m <? N) && negb ((N + m) mod 2 =? 0)) eqn:Ed.
      * right. rewrite pydiv_ok by reflexivity. cbn [bind]. now rewrite pyfloat_big.
      * left. now apply W.
  - intros a Pa. fold (gam N k). apply (for_err_only P _ _ (if (N mod 2 =? 0) then 1 else 0)); [destruct (N mod 2 =? 0); lia|exact Pa| |].
    + intros m a' Hm Pa'. destruct ((Z.abs m <? N) && negb ((N + m) mod 2 =? 0)) eqn:Ed.
      * right. rewrite pydiv_ok by reflexivity. cbn [bind]. now rewrite pyfloat_big.
      * left. now apply W.
    + intros a' Pa'. replace ((Z.abs _ <? N) && _) with true.
      * rewrite pydiv_ok by reflexivity. cbn [bind]. now rewrite pyfloat_big.
      * symmetry. apply andb_true_iff. split; [zb; destruct (N mod 2 =? 0); lia|]. apply negb_true_iff, Z.eqb_neq. destruct (Z.eqb_spec (N mod 2) 0) as [E|E].
        -- rewrite Z.add_mod, E by lia. discriminate.
        -- now rewrite Z.add_0_r.
Qed.
Lemma tiling_fp_inv flg fexp L N s : 1 <= L -> tiling_direction_fp flg fexp L N = Ok s -> float_powers L N.
Proof. intros HL E. destruct (float_powers_dec L N) as [H|H]; [exact H|]. rewrite tiling_fp_err in E by assumption. discriminate. Qed.

(** the value of an entry *)
Lemma zero_ok : is_finite (fint 0) = true /\ B2R (fint 0) = 0%R. Proof. split; reflexivity. Qed.
Lemma small_rnd x : (Rabs x <= 1)%R -> (Rabs (rnd x) < bpow radix2 1024)%R.
Proof.
  intros H. apply Rabs_le_inv in H. apply Rle_lt_trans with 1%R; [|change 1%R with (bpow radix2 0); apply bpow_lt; lia].
  apply Rabs_le. split; [apply (rnd_ge_f _ (IZR (-1)))|apply (rnd_le_f _ (IZR 1))]; try (apply format_int; lia); lra.
Qed.
Lemma fmul_0l x : is_finite x = true -> is_finite (fmul (fint 0) x) = true /\ B2R (fmul (fint 0) x) = 0%R.
Proof.
  intros F. destruct (fmul_ok (fint 0) x eq_refl F) as [A B].
  - change (B2R (fint 0)) with 0%R. rewrite Rmult_0_l. apply small_rnd. rewrite Rabs_R0. lra.
  - split; [exact A|]. rewrite B. change (B2R (fint 0)) with 0%R. rewrite Rmult_0_l. apply rnd_0.
Qed.
Lemma fmul_0r x : is_finite x = true -> is_finite (fmul x (fint 0)) = true /\ B2R (fmul x (fint 0)) = 0%R.
Proof.
  intros F. destruct (fmul_ok x (fint 0) F eq_refl) as [A B].
  - change (B2R (fint 0)) with 0%R. rewrite Rmult_0_r. apply small_rnd. rewrite Rabs_R0. lra.
  - split; [exact A|]. rewrite B. change (B2R (fint 0)) with 0%R. rewrite Rmult_0_r. apply rnd_0.
Qed.
Lemma fin_lt (x : f64) : (Rabs (rnd (B2R x)) < bpow radix2 1024)%R.
Proof. rewrite rnd_id. apply abs_B2R_lt_emax. Qed.
Lemma fadd_z x y : is_finite x = true -> is_finite y = true -> B2R y = 0%R -> is_finite (fadd x y) = true /\ B2R (fadd x y) = B2R x.
Proof.
  intros F F' E. destruct (fadd_ok x y F F') as [A B]; [rewrite E, Rplus_0_r; apply fin_lt|]. split; [exact A|]. now rewrite B, E, Rplus_0_r, rnd_id.
Qed.
Lemma fadd_z' x y : is_finite x = true -> is_finite y = true -> B2R x = 0%R -> is_finite (fadd x y) = true /\ B2R (fadd x y) = B2R y.
Proof.
  intros F F' E. destruct (fadd_ok x y F F') as [A B]; [rewrite E, Rplus_0_l; apply fin_lt|]. split; [exact A|]. now rewrite B, E, Rplus_0_l, rnd_id.
Qed.
Lemma fsub_z x y : is_finite x = true -> is_finite y = true -> B2R y = 0%R -> is_finite (fsub x y) = true /\ B2R (fsub x y) = B2R x.
Proof.
  intros F F' E. destruct (fsub_ok x y F F') as [A B]; [rewrite E, Rminus_0_r; apply fin_lt|]. split; [exact A|]. now rewrite B, E, Rminus_0_r, rnd_id.
Qed.
Lemma fmul_1 x : is_finite x = true -> is_finite (fmul (fint 1) x) = true /\ B2R (fmul (fint 1) x) = B2R x.
Proof.
  intros F. assert (O : B2R (fint 1) = 1%R) by (now rewrite fint_B2R by lia).
  destruct (fmul_ok (fint 1) x eq_refl F) as [A B]; [rewrite O, Rmult_1_l; apply fin_lt|]. split; [exact A|]. now rewrite B, O, Rmult_1_l, rnd_id.
Qed.
(** product of a real and a complex number *)
Lemma cmul_real x s : is_finite x = true -> is_finite (fst s) = true -> is_finite (snd s) = true ->
  is_finite (fmul x (fst s)) = true -> is_finite (fmul x (snd s)) = true -> let p := cmul (creal x) s in
  (is_finite (fst p) = true /\ B2R (fst p) = B2R (fmul x (fst s))) /\ (is_finite (snd p) = true /\ B2R (snd p) = B2R (fmul x (snd s))).
Proof.
  intros Fx F1 F2 G1 G2. cbv zeta. unfold cmul, creal. cbn [fst snd].
  destruct (fmul_0l (fst s) F1) as [A1 B1]. destruct (fmul_0l (snd s) F2) as [A2 B2]. split; [now apply fsub_z|now apply fadd_z].
Qed.
Lemma nuf_val N r : is_finite r = true ->
  is_finite (fst (nuf N r)) = true /\ is_finite (snd (nuf N r)) = true /\
  cval (nuf N r) = if negb (N mod 2 =? 0) then (B2R r, 0%R) else (0%R, B2R r).
Proof.
  intros F. unfold nuf, cval. destruct (negb _).
  - cbn [creal fst snd]. destruct (fmul_1 r F) as [A B]. rewrite B. auto.
  - unfold cmul, creal. cbn [fst snd]. destruct (fmul_0l r F) as [A B]. destruct (fmul_1 r F) as [C D].
    destruct (fmul_0r (fint 1) eq_refl) as [E G]. destruct (fmul_0r (fint 0) eq_refl) as [E' G'].
    destruct (fsub_z _ _ A E G) as [H1 H2]. destruct (fadd_z' _ _ E' C G') as [H3 H4]. rewrite H2, H4, B, D. auto.
Qed.

Section EXACT.
Variables (flg fexp : f64 -> f64).
Hypothesis Hg : accurate_loggamma flg.
Hypothesis He : relative_exp fexp.

Lemma half_k g m k : 0 <= k <= 1100 -> g - m = 2 * k -> is_finite (fdiv (fint (g - m)) (fint 2)) = true /\ B2R (fdiv (fint (g - m)) (fint 2)) = IZR k.
Proof.
  intros Hk E. rewrite E. destruct (fint_ok (2 * k) ltac:(lia)) as [F V].
  assert (T : B2R (fint 2) = 2%R) by (now rewrite fint_B2R by lia).
  assert (R : (B2R (fint (2 * k)) / B2R (fint 2) = IZR k)%R) by (rewrite V, T, mult_IZR; field).
  destruct (fdiv_ok (fint (2 * k)) (fint 2) F) as [A B].
  - rewrite T. lra.
  - rewrite R, rnd_Z by lia. rewrite <- abs_IZR. apply Rle_lt_trans with (bpow radix2 11); [change (bpow radix2 11) with 2048%R; apply IZR_le; lia|apply bpow_lt; lia].
  - split; [exact A|]. rewrite B, R. apply rnd_Z. lia.
Qed.

Lemma dsq_le1 N el m : (dsq N el m <= 1)%R.
Proof.
  unfold dsq. apply Rmult_le_reg_r with (2 ^ Z.to_nat (gam N el))%R; [apply pow_lt; lra|]. unfold Rdiv.
  rewrite Rmult_assoc, Rinv_l by (apply pow_nonzero; lra). rewrite Rmult_1_r, Rmult_1_l.
  replace 2%R with (INR 2) by reflexivity. rewrite <- pow_INR. apply le_INR, tri_le.
Qed.
Lemma rdir_val N el m : 1 <= N <= 41 -> 1 <= el -> Z.abs m <= el -> dmask N m = true ->
  is_finite (rdir flg fexp N el m) = true /\ B2R (rdir flg fexp N el m) = rnd (sqrt (dsq N el m)).
Proof.
  intros HN Hel Hm Hd. destruct (gam_mask N el m ltac:(lia) Hel Hm Hd) as (Hgm & k & Hk & Hkr).
  pose proof (gam_range N el ltac:(lia) Hel) as [Hg' _]. unfold rdir. set (g := gam N el) in *.
  destruct (half_k g m k ltac:(lia) Hk) as [Fh Eh].
  destruct (binom_exact_fp flg fexp (Z.to_nat g) (Z.to_nat k) _ Hg He ltac:(lia) Fh) as [Fb Eb]; [rewrite Eh; f_equal; lia|].
  rewrite Z2Nat.id in Fb, Eb by lia. set (b := binomial_fp _ _ _ _) in *.
  assert (F2 : is_finite (fint (2 ^ g)) = true /\ B2R (fint (2 ^ g)) = bpow radix2 g).
  { destruct (fint_ok (2 ^ g)) as [A B].
    - rewrite Z.abs_eq by (apply Z.pow_nonneg; lia). apply Z.pow_le_mono_r; lia.
    - split; [exact A|]. rewrite B. change 2 with (radix_val radix2). apply IZR_Zpower. lia. }
  destruct F2 as [F2 E2].
  assert (ED : (B2R b / B2R (fint (2 ^ g)) = dsq N el m)%R).
  { rewrite Eb, E2. unfold dsq. fold g. replace ((g - m) / 2) with k by (rewrite Hk, Z.mul_comm, Z.div_mul; lia). f_equal. f_equal.
    rewrite bpow_powerRZ. rewrite <- (Z2Nat.id g) at 1 by lia. rewrite <- pow_powerRZ. reflexivity. }
  assert (ER : rnd (dsq N el m) = dsq N el m).
  { rewrite <- ED, Eb, E2, INR_IZR_INZ. unfold Rdiv. rewrite <- bpow_opp. apply rnd_grid; [|lia].
    pose proof (tri_le (Z.to_nat g) (Z.to_nat k)) as T. apply Nat2Z.inj_le in T. rewrite Nat2Z.inj_pow, Z2Nat.id in T by lia. change (Z.of_nat 2) with 2 in T.
    pose proof (Z.pow_le_mono_r 2 g 53 ltac:(lia) ltac:(lia)). lia. }
  pose proof (dsq_nonneg N el m) as P0. pose proof (dsq_le1 N el m) as P1.
  destruct (fdiv_ok b (fint (2 ^ g)) Fb) as [Fq Eq].
  - rewrite E2. pose proof (bpow_gt_0 radix2 g). lra.
  - rewrite ED. apply small_rnd, Rabs_le. lra.
  - rewrite ED, ER in Eq. destruct (fsqrt_ok _ Fq) as [A B]; [rewrite Eq; exact P0|]. split; [exact A|]. rewrite B, Eq. reflexivity.
Qed.
Lemma rdir_fa N el m : 1 <= N <= 41 -> 1 <= el -> Z.abs m <= el -> dmask N m = true -> fa u1 (rdir flg fexp N el m) (sqrt (dsq N el m)).
Proof.
  intros HN Hel Hm Hd. destruct (rdir_val N el m HN Hel Hm Hd) as [F E]. split; [exact F|]. rewrite E. apply apx_rnd. right.
  destruct (gam_mask N el m ltac:(lia) Hel Hm Hd) as (Hgm & k & Hk & Hkr). pose proof (gam_range N el ltac:(lia) Hel) as [Hg' _].
  apply Rle_trans with (bpow radix2 (-20)); [apply bpow_le; lia|].
  apply Rsqr_incr_0_var; [|apply sqrt_pos]. rewrite Rsqr_sqrt by apply dsq_nonneg. unfold Rsqr. rewrite <- bpow_plus. change (-20 + -20) with (-40).
  unfold dsq. set (g := gam N el) in *. replace ((g - m) / 2) with k by (rewrite Hk, Z.mul_comm, Z.div_mul; lia).
  assert (T : (1 <= INR (pascal_tri (Z.to_nat g) (Z.to_nat k)))%R) by (replace 1%R with (INR 1) by reflexivity; apply le_INR, tri_pos; lia).
  assert (P : (0 < 2 ^ Z.to_nat g <= 2 ^ 40)%R) by (split; [apply pow_lt; lra|apply Rle_pow; [lra|lia]]).
  apply Rle_trans with (1 * / 2 ^ 40)%R.
  - change (bpow radix2 (-40)) with (/ 1099511627776)%R. lra.
  - apply Rmult_le_compat; [lra| |exact T|]; [left; apply Rinv_0_lt_compat; lra|]. apply Rinv_le_contravar; lra.
Qed.

(** symmetric in the order, exactly *)
Lemma rdir_opp N el m : 1 <= N <= 41 -> 1 <= el -> Z.abs m <= el -> dmask N m = true -> rdir flg fexp N el (- m) = rdir flg fexp N el m.
Proof.
  intros HN Hel Hm Hd. destruct (rdir_val N el m HN Hel Hm Hd) as [F E].
  destruct (rdir_val N el (- m) HN Hel ltac:(lia)) as [F' E']; [now rewrite dmask_opp|]. rewrite dsq_opp in E' by (auto; lia).
  pose proof (rdir_fa N el m HN Hel Hm Hd) as [_ (A & B & _)].
  assert (NZ : (0 < B2R (rdir flg fexp N el m))%R).
  { apply Rlt_le_trans with (2 := B). apply Rmult_lt_0_compat; [|apply exp_pos].
    destruct (gam_mask N el m ltac:(lia) Hel Hm Hd) as (Hgm & k & Hk & Hkr). pose proof (gam_range N el ltac:(lia) Hel) as [Hg' _].
    apply sqrt_lt_R0. unfold dsq. set (g := gam N el) in *. replace ((g - m) / 2) with k by (rewrite Hk, Z.mul_comm, Z.div_mul; lia).
    apply Rdiv_lt_0_compat; [|apply pow_lt; lra]. apply lt_0_INR. pose proof (tri_pos (Z.to_nat g) (Z.to_nat k)). lia. }
  assert (NZ' : (0 < B2R (rdir flg fexp N el (- m)))%R) by (rewrite E', <- E; exact NZ).
  apply B2R_inj.
  - destruct (rdir flg fexp N el (- m)); try discriminate; try reflexivity. cbn in NZ'. lra.
  - destruct (rdir flg fexp N el m); try discriminate; try reflexivity. cbn in NZ. lra.
  - congruence.
Qed.
Lemma sdf_opp N el m : 1 <= N <= 41 -> sdf flg fexp N el (- m) = sdf flg fexp N el m.
Proof.
  intros HN. unfold sdf. rewrite Z.abs_opp, dmask_opp. destruct (Z.leb_spec 1 el); cbn [andb]; [|reflexivity].
  destruct (Z.leb_spec (Z.abs m) el); cbn [andb]; [|reflexivity]. destruct (dmask N m) eqn:D; [|reflexivity]. now rewrite rdir_opp.
Qed.
(** an entry of the directional component *)
Lemma sdf_fin N el m : 1 <= N <= 41 -> is_finite (fst (sdf flg fexp N el m)) = true /\ is_finite (snd (sdf flg fexp N el m)) = true.
Proof.
  intros HN. unfold sdf. destruct (Z.leb_spec 1 el); cbn [andb]; [|split; reflexivity].
  destruct (Z.leb_spec (Z.abs m) el); cbn [andb]; [|split; reflexivity]. destruct (dmask N m) eqn:D; [|split; reflexivity].
  destruct (rdir_val N el m) as [F _]; auto. destruct (nuf_val N _ F) as (A & B & _). auto.
Qed.
Lemma sdf_sq N el m : 1 <= N <= 41 -> apx (2 * u1) (Cmod (cval (sdf flg fexp N el m)) ^ 2) (Cmod (sd N el m) ^ 2).
Proof.
  intros HN. rewrite sd_sq. unfold sdf. pose proof u1_pos.
  assert (Z0 : (Cmod (cval (creal (fint 0))) ^ 2 = 0)%R) by (unfold cval, creal; cbn [fst snd]; change (B2R (fint 0)) with 0%R; change (0%R, 0%R) with (RtoC 0); rewrite Cmod_0; ring).
  destruct (Z.leb_spec 1 el); cbn [andb]; [|rewrite Z0; apply apx_refl; lra].
  destruct (Z.leb_spec (Z.abs m) el); cbn [andb]; [|rewrite Z0; apply apx_refl; lra].
  destruct (dmask N m) eqn:D; [|rewrite Z0; apply apx_refl; lra].
  destruct (rdir_fa N el m) as [F A]; auto. destruct (nuf_val N _ F) as (_ & _ & ->).
  replace (Cmod (if negb (N mod 2 =? 0) then (B2R (rdir flg fexp N el m), 0%R) else (0%R, B2R (rdir flg fexp N el m))) ^ 2)%R
    with (B2R (rdir flg fexp N el m) ^ 2)%R.
  - rewrite <- (pow2_sqrt (dsq N el m)) by apply dsq_nonneg. now apply apx_sq.
  - unfold Cmod. destruct (negb _); cbn [fst snd]; rewrite pow2_sqrt by nra; ring.
Qed.
End EXACT.

Lemma apx_zrsum e n f g : (forall k, 0 <= k < n -> apx e (f k) (g k)) -> apx e (zrsum n f) (zrsum n g).
Proof.
  intros H. destruct (Z_le_gt_dec 0 n) as [Hn|Hn].
  - revert H. pattern n. apply natlike_ind; [| |exact Hn].
    + intros _. rewrite !zrsum_0. split; [lra|]. rewrite !Rmult_0_l. lra.
    + intros x Hx IH H. unfold Z.succ in *. rewrite !zrsum_S by lia. apply apx_add; [apply IH; intros; apply H; lia|apply H; lia].
  - unfold zrsum. replace (Z.to_nat n) with O by lia. simpl. split; [lra|]. rewrite !Rmult_0_l. lra.
Qed.

Lemma near0 : nearest64 0 = 0%R. Proof. apply round_0. typeclasses eauto. Qed.
Lemma sdf_round flg fexp N el m : accurate_loggamma flg -> relative_exp fexp -> 1 <= N <= 41 ->
  cval (sdf flg fexp N el m) = (nearest64 (fst (sd N el m)), nearest64 (snd (sd N el m))).
Proof.
  intros Hg He HN. unfold sdf, sd.
  destruct (Z.leb_spec 1 el); cbn [andb RtoC fst snd]; [|rewrite near0; reflexivity].
  destruct (Z.leb_spec (Z.abs m) el); cbn [andb RtoC fst snd]; [|rewrite near0; reflexivity].
  destruct (dmask N m) eqn:D; cbn [RtoC fst snd]; [|rewrite near0; reflexivity].
  destruct (rdir_val flg fexp Hg He N el m) as [F E]; auto. destruct (nuf_val N _ F) as (_ & _ & ->). rewrite E. unfold nu, Cmult, Ci.
  destruct (negb _); cbn [fst snd RtoC].
  - rewrite !Rmult_0_l, Rmult_0_r, Rminus_0_r, Rplus_0_r, Rmult_1_l, near0. reflexivity.
  - rewrite !Rmult_0_l, Rmult_0_r, Rminus_0_r, Rplus_0_l, Rmult_1_l, near0. reflexivity.
Qed.

(*% returned, whatever the library, if the powers of two are floats; zero outside the band *)
(*@ C65_component_total *)
Lemma fp_dir_total_any : forall flg fexp L N, 1 <= L -> float_powers L N ->
  exists s, tiling_direction_fp flg fexp L N = Ok s /\ shape2 s = [L; 2 * L - 1] /\
    (forall l m, 0 <= l < L -> Z.abs m < L -> cval (get2 s l (L - 1 + m)) <> RtoC 0 ->
       1 <= l /\ Z.abs m <= l /\ Z.abs m <= N - 1 /\ Z.even (m - (N - 1)) = true).
Proof.
  intros flg fexp L N HL HF. exists (sf_arr flg fexp L N). split; [now apply tiling_fp_ok|]. split; [reflexivity|].
  intros l m Hl Hm. unfold sf_arr. rewrite get2_mk by lia. replace (L - 1 + m - (L - 1)) with m by lia. unfold sdf.
  destruct (Z.leb_spec 1 l); cbn [andb]; [|intros H'; now destruct H'].
  destruct (Z.leb_spec (Z.abs m) l); cbn [andb]; [|intros H'; now destruct H'].
  destruct (dmask N m) eqn:D; [|intros H'; now destruct H']. intros _. unfold dmask in D. apply andb_true_iff in D as [D1 D2].
  apply Z.ltb_lt in D1. apply negb_true_iff, Z.eqb_neq in D2. repeat split; try lia. rewrite Zmod_even in D2.
  replace (N + m) with (m - (N - 1) + 1 + 2 * (N - 1)) in D2 by lia. rewrite Z.even_add_mul_2, Z.even_add in D2.
  destruct (Z.even (m - (N - 1))); [reflexivity|]. now destruct D2.
Qed.

(*% every entry is the binary64 number nearest to the exact one *)
(*@ C65_component_rounded *)
Lemma fp_dir_rounded : forall flg fexp L N, accurate_loggamma flg -> relative_exp fexp -> 1 <= L -> 1 <= N <= 41 ->
  exists sf s, tiling_direction_fp flg fexp L N = Ok sf /\ tiling_direction L N = Ok s /\ shape2 sf = shape2 s /\
    (forall l m, 0 <= l < L -> Z.abs m < L ->
       is_finite (fst (get2 sf l (L - 1 + m))) = true /\ is_finite (snd (get2 sf l (L - 1 + m))) = true /\
       cval (get2 sf l (L - 1 + m)) = (nearest64 (fst (get2 s l (L - 1 + m))), nearest64 (snd (get2 s l (L - 1 + m))))).
Proof.
  intros flg fexp L N Hg He HL HN. exists (sf_arr flg fexp L N), (s_arr L N). split; [apply tiling_fp_ok; [lia|left; lia]|].
  split; [unfold tiling_direction; apply tiling_direction_with_ok; [apply loggamma_ok|lia|lia]|]. split; [reflexivity|].
  intros l m Hl Hm. unfold sf_arr, s_arr. rewrite !get2_mk by lia.
  destruct (sdf_fin flg fexp Hg He N l (L - 1 + m - (L - 1)) HN) as [A B]. split; [exact A|]. split; [exact B|]. now apply sdf_round.
Qed.

(*% exactly even in the order: the reality condition of the wavelets survives rounding *)
(*@ C65_component_even *)
Lemma fp_dir_even : forall flg fexp L N s, accurate_loggamma flg -> relative_exp fexp -> 1 <= L -> 1 <= N <= 41 ->
  tiling_direction_fp flg fexp L N = Ok s ->
  forall l m, 0 <= l < L -> Z.abs m < L -> get2 s l (L - 1 - m) = get2 s l (L - 1 + m).
Proof.
  intros flg fexp L N s Hg He HL HN E l m Hl Hm. rewrite tiling_fp_ok in E by (lia || (left; lia)). apply Ok_inj in E. subst s.
  unfold sf_arr. rewrite !get2_mk by lia. replace (L - 1 - m - (L - 1)) with (- (L - 1 + m - (L - 1))) by lia. now apply sdf_opp.
Qed.

(*% normalised up to rounding *)
(*@ C65_component_normalised *)
Lemma fp_dir_normalised : forall flg fexp L N s, accurate_loggamma flg -> relative_exp fexp -> 1 <= L -> 1 <= N <= 41 ->
  tiling_direction_fp flg fexp L N = Ok s ->
  forall l, 1 <= l < L -> (Rabs (sumZ (- l) (l + 1) (fun m => Cmod (cval (get2 s l (L - 1 + m))) ^ 2) - 1) <= bpow radix2 (-50))%R.
Proof.
  intros flg fexp L N s Hg He HL HN E l Hl. rewrite tiling_fp_ok in E by (lia || (left; lia)). apply Ok_inj in E. subst s.
  pose proof u1_pos as U. assert (A : apx (2 * u1) (sumZ (- l) (l + 1) (fun m => Cmod (cval (get2 (sf_arr flg fexp L N) l (L - 1 + m))) ^ 2)%R) 1).
  { rewrite sumZ_zrsum by lia. rewrite <- (sd_norm N l) by lia. replace (l + 1 - - l) with (2 * l + 1) by lia. apply apx_zrsum.
    intros k Hk. unfold sf_arr. rewrite get2_mk by lia. replace (L - 1 + (- l + k) - (L - 1)) with (k - l) by lia. now apply sdf_sq. }
  apply apx_abs in A; [|unfold u1, eps; change (bpow radix2 (-53)) with (/ 9007199254740992)%R; lra].
  eapply Rle_trans; [exact A|]. unfold u1, eps. change (bpow radix2 (-53)) with (/ 9007199254740992)%R. change (bpow radix2 (-50)) with (/ 1125899906842624)%R. lra.
Qed.

(*% a library meeting the hypotheses: real values, to 2^-60, rounded *)
Definition to_f64 (x : R) : f64 := binary_normalize 53 1024 gt53 lt53 mode_NE (ZnearestE (x * bpow radix2 60)) (-60) false.
Definition near_exp (x : f64) : f64 := to_f64 (exp (B2R x)).
Definition near_lg (x : f64) : f64 := to_f64 (ln (INR (fact (Z.to_nat (Zfloor (B2R x) - 1))))).
Lemma to_f64_ok x : (0 <= x <= bpow radix2 500)%R ->
  is_finite (to_f64 x) = true /\ (0 <= B2R (to_f64 x))%R /\ (Rabs (B2R (to_f64 x) - x) <= bpow radix2 (-61) + eps * (x + bpow radix2 (-61)))%R /\
  (x = 0 -> B2R (to_f64 x) = 0)%R.
Proof.
  intros [H0 H1]. unfold to_f64. set (N := ZnearestE (x * bpow radix2 60)).
  assert (HN : (Rabs (IZR N - x * bpow radix2 60) <= / 2)%R) by (rewrite Rabs_minus_sym; apply (Znearest_half (fun t => negb (Z.even t)))).
  apply Rabs_le_inv in HN. assert (B60 : bpow radix2 60 = 1152921504606846976%R) by reflexivity.
  assert (BM : bpow radix2 (-60) = (/ 1152921504606846976)%R) by reflexivity. assert (BN : bpow radix2 (-61) = (/ 2305843009213693952)%R) by reflexivity.
  assert (N0 : 0 <= N).
  { assert (A : (-1 < IZR N)%R) by (rewrite B60 in HN; lra). apply (lt_IZR (-1)) in A. lia. }
  pose proof (binary_normalize_correct 53 1024 gt53 lt53 mode_NE N (-60) false) as H. cbv zeta in H.
  assert (E : F2R (Float radix2 N (-60)) = (IZR N * bpow radix2 (-60))%R) by reflexivity. rewrite E in H. set (v := (IZR N * bpow radix2 (-60))%R) in *.
  assert (HV : (Rabs (v - x) <= bpow radix2 (-61))%R) by (unfold v; rewrite BM, BN; rewrite B60 in HN; apply Rabs_le; lra).
  assert (V0 : (0 <= v)%R) by (unfold v; apply Rmult_le_pos; [now apply IZR_le|apply bpow_ge_0]).
  assert (VX : (v <= x + bpow radix2 (-61))%R) by (apply Rabs_le_inv in HV; lra).
  assert (VB : (v <= bpow radix2 501)%R).
  { change 501 with (500 + 1). rewrite bpow_plus. change (bpow radix2 1) with 2%R. assert (bpow radix2 0 <= bpow radix2 500)%R by (apply bpow_le; lia). change (bpow radix2 0) with 1%R in *. lra. }
  assert (R0 : (0 <= rnd v)%R) by (rewrite <- rnd_0; now apply rnd_mono).
  rewrite Rlt_bool_true in H.
  2:{ rewrite Rabs_pos_eq by exact R0. apply Rle_lt_trans with (bpow radix2 501); [|apply bpow_lt; lia].
      rewrite <- (round_generic radix2 (SpecFloat.fexp 53 1024) (round_mode mode_NE) (bpow radix2 501)); [now apply rnd_mono|].
      apply generic_format_bpow. vm_compute. discriminate. }
  destruct H as (HVV & HF & _). split; [exact HF|]. rewrite HVV. split; [exact R0|]. split.
  - assert (HR : (Rabs (rnd v - v) <= eps * v)%R).
    { destruct (Z.eq_dec N 0) as [Z0|NZ].
      - unfold v. rewrite Z0, Rmult_0_l. rewrite rnd_0, Rminus_0_r, Rabs_R0. lra.
      - rewrite <- (Rabs_pos_eq v V0) at 3. apply rnd_rel. rewrite Rabs_pos_eq by exact V0. apply Rle_trans with (bpow radix2 (-60)); [apply bpow_le; lia|].
        unfold v. rewrite <- (Rmult_1_l (bpow radix2 (-60))) at 1. apply Rmult_le_compat_r; [apply bpow_ge_0|]. apply IZR_le. lia. }
    replace (rnd v - x)%R with ((rnd v - v) + (v - x))%R by ring. eapply Rle_trans; [apply Rabs_triang|].
    assert (eps * v <= eps * (x + bpow radix2 (-61)))%R by (apply Rmult_le_compat_l; [unfold eps; lra|exact VX]). lra.
  - intros X0. assert (NN : N = 0) by (unfold N; rewrite X0, Rmult_0_l; apply (Zrnd_IZR ZnearestE 0)). unfold v. rewrite NN, Rmult_0_l. apply rnd_0.
Qed.
Lemma exp30 : (exp 30 <= bpow radix2 500)%R.
Proof.
  replace 30%R with (INR 30 * 1)%R by (simpl; ring). rewrite exp_npow. pose proof exp_le_3. pose proof (exp_pos 1).
  apply Rle_trans with (4 ^ 30)%R; [apply pow_incr; lra|]. apply Rle_trans with (bpow radix2 60); [|apply bpow_le; lia].
  change (bpow radix2 60) with 1152921504606846976%R. lra.
Qed.
Lemma near_relative : relative_exp near_exp.
Proof.
  intros x F [H1 H2]. unfold near_exp. set (y := exp (B2R x)).
  assert (L1 : (/ 4 <= y)%R).
  { apply Rle_trans with (exp (- (1))); [|apply exp_mono; lra]. rewrite exp_Ropp. apply Rinv_le_contravar; [apply exp_pos|]. pose proof exp_le_3. lra. }
  assert (L2 : (y <= bpow radix2 500)%R) by (apply Rle_trans with (exp 30); [apply exp_mono; lra|apply exp30]).
  destruct (to_f64_ok y ltac:(lra)) as (A & _ & B & _). split; [exact A|]. eapply Rle_trans; [exact B|]. unfold eps.
  change (bpow radix2 (-61)) with (/ 2305843009213693952)%R. change (bpow radix2 (-47)) with (/ 140737488355328)%R. lra.
Qed.
Lemma near_accurate : accurate_exp near_exp.
Proof.
  intros x F Hx. unfold near_exp. set (y := exp (B2R x)). assert (Hy : (0 < y <= / 4)%R).
  { split; [apply exp_pos|]. apply Rle_trans with (exp (- (2))); [apply exp_mono; lra|].
    rewrite exp_Ropp. apply Rinv_le_contravar; [lra|]. replace 2%R with (1 + 1)%R by ring. rewrite exp_plus.
    pose proof (exp_ineq1_le 1). assert (2 * 2 <= exp 1 * exp 1)%R by (apply Rmult_le_compat; lra). lra. }
  destruct (to_f64_ok y) as (A & B & C & _).
  { split; [lra|]. apply Rle_trans with (bpow radix2 0); [change (bpow radix2 0) with 1%R; lra|apply bpow_le; lia]. }
  split; [exact A|]. split; [exact B|]. eapply Rle_trans; [exact C|]. unfold eps.
  change (bpow radix2 (-61)) with (/ 2305843009213693952)%R. change (bpow radix2 (-53)) with (/ 9007199254740992)%R. lra.
Qed.
Lemma near_loggamma : accurate_loggamma near_lg.
Proof.
  intros n Hn. cbv zeta. unfold near_lg. rewrite fint_B2R by lia. rewrite Zfloor_IZR. replace (Z.to_nat (Z.of_nat n + 1 - 1)) with n by lia.
  set (y := ln (INR (fact n))). assert (L2 : (y <= 160)%R) by (now apply ln_fact).
  assert (L1 : y = 0%R \/ (/ 2 <= y)%R).
  { unfold y. destruct n as [|[|n]]; [left; apply ln_1|left; apply ln_1|]. right. apply Rle_trans with (ln 2).
    - rewrite <- (ln_exp (/ 2)). apply ln_le; [apply exp_pos|]. apply Rsqr_incr_0_var; [|lra]. unfold Rsqr. rewrite <- exp_plus.
      replace (/ 2 + / 2)%R with 1%R by field. pose proof exp_le_3. lra.
    - apply ln_le; [lra|]. replace 2%R with (INR 2) by reflexivity. apply le_INR. change 2%nat with (fact 2). apply fact_le. lia. }
  destruct (to_f64_ok y) as (A & _ & B & C).
  { split; [destruct L1; lra|]. apply Rle_trans with (bpow radix2 8); [change (bpow radix2 8) with 256%R; lra|apply bpow_le; lia]. }
  split; [exact A|]. destruct L1 as [L1|L1].
  - rewrite C by exact L1. rewrite L1, Rminus_0_r, Rabs_R0. pose proof (bpow_ge_0 radix2 (-47)). lra.
  - eapply Rle_trans; [exact B|]. unfold eps.
    change (bpow radix2 (-61)) with (/ 2305843009213693952)%R. change (bpow radix2 (-47)) with (/ 140737488355328)%R. lra.
Qed.

(*% a library meets the hypotheses; with it the entry of degree 2 and order 0 for N = 3 is sqrt(1/2), rounded *)
(*@E C65_example *)
Lemma ex_fp_dir : exists flg fexp s, accurate_loggamma flg /\ relative_exp fexp /\ tiling_direction_fp flg fexp 4 3 = Ok s /\
  B2R (binomial_fp flg fexp 40 (fint 20)) = Binomial.C 40 20 /\
  cval (get2 s 2 (4 - 1 + 0)) = RtoC (nearest64 (sqrt (2 / 4))).
Proof.
  pose proof near_loggamma as Hg. pose proof near_relative as He.
  destruct (fp_dir_rounded near_lg near_exp 4 3 Hg He ltac:(lia) ltac:(lia)) as (sf & s & E & E' & _ & H).
  exists near_lg, near_exp, sf. split; [exact Hg|]. split; [exact He|]. split; [exact E|].
  split; [apply (fp_binomial near_lg near_exp 40 20 Hg He ltac:(lia))|].
  destruct (H 2 0 ltac:(lia) ltac:(lia)) as (_ & _ & ->). destruct ex_dir as (s' & E2 & E3 & _). rewrite E' in E2. apply Ok_inj in E2. subst s'.
  rewrite E3. cbn [RtoC fst snd]. now rewrite near0.
Qed.
