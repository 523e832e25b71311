(** Statements and proofs for PropertiesFloatAcc.v *)

From Coq Require Import ZArith Reals List Bool Lia Lra Psatz.
From Coquelicot Require Import Coquelicot.
From Flocq Require Import Core Relative IEEE754.BinarySingleNaN.
From Verif Require Import Py PyFacts ModelSamples SamplesFacts SamplesProps ModelFilters FiltersFacts Spec SpecQuad FiltersProps FrameProps QuadFacts QuadProps.
From Verif Require Import ModelFloat FloatProps SpecFp FloatFacts FloatFilterProps FloatDefault FloatAcc.
Import ListNotations.
Open Scope Z_scope.

(*T The default dilation lam = 2 in binary64 *)
(*! From Coq Require Import ZArith Reals List Bool. *)
(*! From Flocq Require Import Core IEEE754.BinarySingleNaN. *)
(*! Import ListNotations. *)
(*! From Verif Require Import Py ModelSamples ModelFilters ModelFloat Spec SpecQuad SpecFp. *)

(** ** powers of two *)
Lemma bpow2 j : bpow radix2 j = powerRZ 2 j.
Proof. apply bpow_powerRZ. Qed.
Lemma exact_incr fpow J : -1 <= J -> exact_powers fpow J -> increasing_powers fpow (fint 2) J.
Proof.
  intros HJ H. split; [intros j Hj; apply H; lia|]. split; [|split].
  - destruct (H (-1) ltac:(lia)) as [_ ->]. apply bpow_gt_0.
  - destruct (H 0 ltac:(lia)) as [_ ->]. reflexivity.
  - intros j Hj. destruct (H j ltac:(lia)) as [_ ->]. destruct (H (j + 1) ltac:(lia)) as [_ ->]. apply bpow_lt. lia.
Qed.
Lemma le53 l j : l <= 2 ^ 53 -> (bpow radix2 (j - 1) <= IZR l)%R -> j <= 54.
Proof.
  intros Hl H. destruct (Z_le_gt_dec j 54) as [G|G]; [exact G|exfalso].
  assert (bpow radix2 54 <= bpow radix2 (j - 1))%R by (apply bpow_le; lia).
  apply IZR_le in Hl. change (IZR (2 ^ 53)) with (bpow radix2 53) in Hl.
  assert (bpow radix2 53 < bpow radix2 54)%R by (apply bpow_lt; lia). lra.
Qed.

Lemma frac fpow J j l : exact_powers fpow J -> 0 <= j <= J + 1 -> 0 <= l <= 2 ^ 53 ->
  (bpow radix2 (j - 1) <= IZR l <= bpow radix2 j)%R ->
  exists a, pydiv (fint l) (fpow (fint 2) j) = Ok a /\ is_finite a = true /\ B2R a = (IZR l / bpow radix2 j)%R /\ (/ 2 <= B2R a <= 1)%R.
Proof.
  intros H Hj Hl HB. destruct (H j ltac:(lia)) as [Fp Ep]. pose proof (bpow_gt_0 radix2 j) as Pp. pose proof (le53 l j ltac:(lia) ltac:(lra)) as Hj'.
  assert (R : (/ 2 <= IZR l / bpow radix2 j <= 1)%R).
  { assert (E : bpow radix2 (j - 1) = (bpow radix2 j * / 2)%R) by (unfold Z.sub; rewrite bpow_plus; reflexivity). rewrite E in HB. split.
    - apply Rmult_le_reg_r with (bpow radix2 j); [lra|]. unfold Rdiv. rewrite Rmult_assoc, Rinv_l by lra. lra.
    - apply Rmult_le_reg_r with (bpow radix2 j); [lra|]. unfold Rdiv. rewrite Rmult_assoc, Rinv_l by lra. lra. }
  exists (fdiv (fint l) (fpow (fint 2) j)).
  split. { apply pydiv_ok, feq_false; [exact Fp|reflexivity|]. rewrite (fint_B2R 0) by lia. lra. }
  destruct (fdiv_ok (fint l) (fpow (fint 2) j)) as [F E]; [apply fint_fin; lia|lra| |].
  { rewrite Ep, fint_B2R by lia. apply big. rewrite Rabs_pos_eq by lra. change (2 ^ 53) with 9007199254740992. lra. }
  rewrite Ep, fint_B2R in E by lia.
  assert (E' : rnd (IZR l / bpow radix2 j) = (IZR l / bpow radix2 j)%R).
  { unfold Rdiv. rewrite <- bpow_opp. apply rnd_grid; lia. }
  rewrite E' in E. split; [exact F|]. split; [exact E|]. rewrite E. exact R.
Qed.

Lemma flt_false_inv x y : is_finite x = true -> is_finite y = true -> flt x y = false -> (B2R y <= B2R x)%R.
Proof. intros Fx Fy H. apply Rnot_lt_le. intros G. rewrite flt_true in H by assumption. discriminate. Qed.

(** no entry raises *)
Lemma entry_total fexp fpow J j l c : exact_powers fpow J -> 0 <= j <= J + 1 -> 0 <= l <= 2 ^ 53 ->
  exists v, k_entry_fp fexp fpow j l (fint 2) 300 c = Ok v.
Proof.
  intros H Hj Hl. destruct (H j ltac:(lia)) as [Fp Ep]. destruct (H (j - 1) ltac:(lia)) as [Fq Eq]. unfold k_entry_fp.
  destruct (fint_ok l ltac:(lia)) as [Fl El].
  destruct (flt (fint l) _) eqn:E1; [eauto|]. destruct (flt (fpow _ j) _) eqn:E2; [eauto|].
  apply flt_false_inv in E1; auto. apply flt_false_inv in E2; auto. rewrite El, ?Ep, ?Eq in *.
  destruct (frac fpow J j l H Hj Hl (conj E1 E2)) as (a & -> & Fa & _ & Ra). cbn [bind].
  destruct (Req_dec (B2R a) 1) as [Ea|Ea].
  - unfold part_scaling_fn_fp. rewrite (pydiv_ok _ (fint 300)) by exact f300. cbn [bind].
    replace (feq a (fint 1)) with true; [cbn [bind]; eauto|]. symmetry. apply feq_iff; [exact Fa|reflexivity|]. rewrite one_B2R. exact Ea.
  - destruct (part_total fexp a Fa) as (v & ->); [lra|]. cbn [bind]. eauto.
Qed.

Lemma norm_total fexp : exists il c, pydiv (fint 1) (fint 2) = Ok il /\ part_scaling_fn_fp fexp il (fint 1) 300 (fint 2) = Ok c.
Proof.
  exists (fdiv (fint 1) (fint 2)). destruct (part_total fexp (fdiv (fint 1) (fint 2))) as (c & E); [reflexivity|rewrite half_B2R; lra|].
  exists c. split; [apply il_is_half|exact E].
Qed.

Definition val (r : res f64) : f64 := match r with Ok v => v | Err _ => fint 0 end.

(*% ** C63: with lam = 2 no division by zero occurs, whatever the exponential returns *)

(*@ C63_generating_function_never_raises *)
Lemma fp2_total : forall fexp fpow J L, 0 <= L <= 2 ^ 53 -> -1 <= J -> exact_powers fpow J ->
  exists k, k_lam_fp fexp fpow J L (fint 2) 300 = Ok k /\ rows k = J + 2 /\ cols k = L.
Proof.
  intros fexp fpow J L HL HJ HP. destruct (norm_total fexp) as (il & c & Ei & Ec).
  unfold k_lam_fp. rewrite Ei. cbn [bind]. rewrite Ec. cbn [bind]. rewrite zeros2_ok by lia. cbn [bind].
  set (kf := fun j l => val (k_entry_fp fexp fpow j l (fint 2) 300 c)).
  rewrite (for_fill2 _ _ _ _ _ (fun _ _ => true) kf); [|lia|lia|lia|].
  - eexists. split; [reflexivity|]. split; reflexivity.
  - intros i g Hi. rewrite (for_fill2_row _ _ _ i _ _ 0 (kf i)); [|lia|lia|lia|lia|].
    + f_equal. apply mk2_ext. intros p q Hp Hq. rewrite Z.sub_0_r. zb.
    + intros l g' Hl. unfold kf. destruct (entry_total fexp fpow J i l c HP ltac:(lia) ltac:(lia)) as (v & ->). reflexivity.
Qed.

Lemma for_prog {S} (P : Z -> S -> Prop) lo hi s body : lo <= hi -> P lo s ->
  (forall i a, lo <= i < hi -> P i a -> exists b, body i a = Ok b /\ P (i + 1) b) ->
  exists b, for_ (zrange lo hi) s body = Ok b /\ P hi b.
Proof.
  intros Hle H0 Hs.
  assert (G : forall n : nat, lo + Z.of_nat n <= hi -> exists b, for_ (zrange lo (lo + Z.of_nat n)) s body = Ok b /\ P (lo + Z.of_nat n) b).
  { induction n as [|n IH]; intros Hn.
    - rewrite zrange_nil by lia. cbn [for_]. rewrite Z.add_0_r. eauto.
    - destruct IH as (b & Eb & Pb); [lia|]. replace (lo + Z.of_nat (Datatypes.S n)) with (lo + Z.of_nat n + 1) by lia.
      rewrite zrange_snoc by lia. rewrite for_app, Eb. cbn [bind for_].
      destruct (Hs (lo + Z.of_nat n) b ltac:(lia) Pb) as (b' & -> & Pb'). cbn [bind]. eauto. }
  specialize (G (Z.to_nat (hi - lo))). replace (lo + Z.of_nat (Z.to_nat (hi - lo))) with hi in G by lia. apply G. lia.
Qed.

(*% the loop over the multipoles never reads temp before it is set *)
(*@ C63_filters_never_raise *)
Lemma fp2_filters_total : forall fexp fpow J L J_min, 0 <= L <= 2 ^ 53 -> 0 <= J_min < J -> exact_powers fpow J ->
  (exists psi phi, filters_axisym_fp fexp fpow J L J_min (fint 2) = Ok (psi, phi)) /\
  (exists psi phi, filters_axisym_vectorised_fp fexp fpow J L J_min (fint 2) = Ok (psi, phi)).
Proof.
  intros fexp fpow J L J_min HL HJ HP. destruct (fp2_total fexp fpow J L HL ltac:(lia) HP) as (k & Ek & Rk & Ck).
  assert (G : (J <=? J_min) || (J_min <? 0) = false) by (apply orb_false_iff; split; [apply Z.leb_gt|apply Z.ltb_ge]; lia).
  split.
  - unfold filters_axisym_fp. rewrite G, Ek. cbn [bind]. rewrite zeros2_ok, zeros1_ok by lia. cbn [bind].
    rewrite (for_fill1 L _ 0 L (fun l => fsqrt (get2 k J_min l))); [|lia|lia|lia|].
    2:{ intros l g Hl. rewrite rd2_ok by lia. reflexivity. }
    cbn [bind].
    set (P := fun (_ : Z) (st : arr2 f64 * f64 * option f64) => rows (fst (fst st)) = J + 1 /\ cols (fst (fst st)) = L).
    assert (K0 : 0 < L -> forall j, 0 <= j <= J + 1 -> get2 k j 0 = fint 1).
    { intros HL0 j Hj. destruct (k_lam_fp_inv _ _ _ _ _ _ _ Ek) as (il & c & _ & _ & _ & _ & _ & _ & HK).
      specialize (HK j 0 ltac:(lia) ltac:(lia)). destruct (HP (j - 1) ltac:(lia)) as [Fq Eq].
      rewrite k_one in HK; [now apply Ok_inj in HK|lia|exact Fq|]. rewrite Eq. apply bpow_gt_0. }
    match goal with |- exists psi phi, bind (for_ (zrange J_min (J + 1)) ?s ?bd) _ = _ =>
      destruct (for_prog P J_min (J + 1) s bd) as ([[psi p] t] & -> & _) end; [lia|split; reflexivity| |cbn [bind]; eauto].
    intros j [[a p] t] Hj (A & B). cbn [fst] in A, B.
    set (Q := fun (m : Z) (st : arr2 f64 * f64 * option f64) => rows (fst (fst st)) = J + 1 /\ cols (fst (fst st)) = L /\ (0 < m -> snd st <> None)).
    match goal with |- exists b, for_ _ ?s ?bd = _ /\ _ =>
      destruct (for_prog Q 0 L s bd) as (b & Eb & HQ) end; [lia|split; [exact A|split; [exact B|lia]]| |exists b; split; [exact Eb|]; split; apply HQ].
    intros m [[a' p'] t'] Hm (A' & B' & D'). cbn [fst snd] in A', B', D'.
    rewrite !rd2_ok by lia. cbn [bind]. rewrite !wr2_ok by lia.
    destruct (flt (fsub _ _) (fint 0)) eqn:E; cbn [bind].
    + destruct t' as [t'|].
      * eexists. split; [reflexivity|]. unfold Q. cbn [fst snd rows cols mk2]. repeat split; auto. discriminate.
      * exfalso. destruct (Z.eq_dec m 0) as [->|]; [|apply D'; [lia|reflexivity]].
        rewrite !K0 in E by lia. rewrite fsub11 in E. vm_compute in E. discriminate.
    + eexists. split; [reflexivity|]. unfold Q. cbn [fst snd rows cols mk2]. repeat split; auto. discriminate.
  - unfold filters_axisym_vectorised_fp. rewrite G, Ek. cbn [bind]. unfold row2. rewrite idx_ok by lia. cbn [bind]. eauto.
Qed.

(*% ** C64: with lam = 2 the rounding errors stay below 2^-33 *)

Lemma quad_err2 : (0 <= quad_error 2 300 <= / 200)%R.
Proof. unfold quad_error. lra. Qed.

Definition Cn : R := trapezium 2 (/ 2) 1 300.
Lemma Cn_lb : (/ 80 <= Cn)%R.
Proof. unfold Cn. replace (/ 2)%R with (1 / 2)%R by lra. pose proof (norm_lb 2 300 ltac:(lra) ltac:(lia)). lra. Qed.

Lemma norm_acc fexp : accurate_exp fexp ->
  exists c, part_scaling_fn_fp fexp (fdiv (fint 1) (fint 2)) (fint 1) 300 (fint 2) = Ok c /\ is_finite c = true /\ (Rabs (B2R c - Cn) <= 902 * eps)%R.
Proof.
  intros H. destruct (part_trap fexp (fdiv (fint 1) (fint 2)) 1 H) as (c & E & F & _ & A); [reflexivity|rewrite half_B2R; lra| |].
  - right. split; [reflexivity|apply half_B2R].
  - rewrite half_B2R in A. eauto.
Qed.

(** the quotient of the integrals *)
Lemma quot_acc v c V : is_finite v = true -> is_finite c = true -> (0 <= B2R v)%R -> (0 <= V <= 201 / 200 * Cn)%R ->
  (Rabs (B2R v - V) <= 902 * eps)%R -> (Rabs (B2R c - Cn) <= 902 * eps)%R ->
  is_finite (fdiv v c) = true /\ (0 <= B2R (fdiv v c))%R /\ (Rabs (B2R (fdiv v c) - V / Cn) <= 200000 * eps)%R.
Proof.
  intros Fv Fc Pv HV Av Ac. pose proof Cn_lb as HC. apply Rabs_le_inv in Av, Ac.
  assert (He : (0 < eps <= / 9007199254740992)%R) by (unfold eps; lra).
  set (w := (V / Cn)%R). assert (Ew : V = (w * Cn)%R) by (unfold w; field; lra).
  assert (Hw : (0 <= w <= 201 / 200)%R).
  { split; [apply Rdiv_le_0_compat; lra|]. apply Rmult_le_reg_r with Cn; [lra|]. rewrite <- Ew. lra. }
  assert (Hc : (/ 81 <= B2R c)%R) by lra.
  assert (Q : (Rabs (B2R v / B2R c - w) <= 150000 * eps)%R).
  { replace (B2R v / B2R c - w)%R with ((B2R v - V - w * (B2R c - Cn)) * / B2R c)%R by (rewrite Ew; field; lra).
    rewrite Rabs_mult, (Rabs_pos_eq (/ B2R c)) by (left; apply Rinv_0_lt_compat; lra).
    apply Rle_trans with (1810 * eps * 81)%R; [|lra]. apply Rmult_le_compat; [apply Rabs_pos|left; apply Rinv_0_lt_compat; lra| |].
    - assert (Y : (Rabs (w * (B2R c - Cn)) <= 201 / 200 * (902 * eps))%R).
      { rewrite Rabs_mult. apply Rmult_le_compat; try apply Rabs_pos; [rewrite Rabs_pos_eq; lra|apply Rabs_le; lra]. }
      apply Rabs_le_inv in Y. apply Rabs_le. lra.
    - rewrite <- (Rinv_inv 81). apply Rinv_le_contravar; lra. }
  apply Rabs_le_inv in Q. assert (P : (0 <= B2R v / B2R c)%R) by (apply Rdiv_le_0_compat; lra).
  assert (U : (Rabs (B2R v / B2R c) <= 2)%R) by (rewrite Rabs_pos_eq; lra).
  destruct (fdiv_ok v c Fv) as [F E]; [lra| |].
  { apply big. change (2 ^ 53) with 9007199254740992. lra. }
  split; [exact F|]. rewrite E. split; [now apply rnd_pos|].
  pose proof (rnd_abs2 _ U) as R. apply Rabs_le_inv in R. apply Rabs_le. lra.
Qed.

Lemma entry_acc fexp fpow J j l c : accurate_exp fexp -> exact_powers fpow J -> 0 <= j <= J + 1 -> 0 <= l <= 2 ^ 53 ->
  is_finite c = true -> (Rabs (B2R c - Cn) <= 902 * eps)%R ->
  exists v, k_entry_fp fexp fpow j l (fint 2) 300 c = Ok v /\ is_finite v = true /\ (0 <= B2R v)%R /\
    (Rabs (B2R v - kv 2 300 j l) <= 200000 * eps)%R.
Proof.
  intros Hf H Hj Hl Fc Ac. destruct (H j ltac:(lia)) as [Fp Ep]. destruct (H (j - 1) ltac:(lia)) as [Fq Eq]. unfold k_entry_fp.
  destruct (fint_ok l ltac:(lia)) as [Fl El]. pose proof Cn_lb as HC. pose proof eps_small as He.
  assert (He' : (0 < eps <= / 9007199254740992)%R) by (unfold eps; lra).
  assert (Z0 : (Rabs 0 <= 200000 * eps)%R) by (rewrite Rabs_R0; lra).
  destruct (flt (fint l) _) eqn:E1.
  { apply flt_iff in E1; auto. rewrite El, Eq, bpow2 in E1. exists (fint 1). split; [reflexivity|]. split; [reflexivity|].
    rewrite one_B2R. split; [lra|]. rewrite kv_one by (lra || lia). now rewrite Rminus_eq_0. }
  apply flt_false_inv in E1; auto.
  destruct (flt (fpow _ j) _) eqn:E2.
  { apply flt_iff in E2; auto. rewrite El, Ep, bpow2 in E2. exists (fint 0). split; [reflexivity|]. split; [reflexivity|].
    rewrite (fint_B2R 0) by lia. split; [lra|]. rewrite kv_zero by lra. now rewrite Rminus_eq_0. }
  apply flt_false_inv in E2; auto. rewrite El, ?Ep, ?Eq in *.
  destruct (frac fpow J j l H Hj Hl (conj E1 E2)) as (a & -> & Fa & Ea & Ra). cbn [bind].
  assert (P0 : flt (fint 0) c = true).
  { apply flt_true; [reflexivity|exact Fc|]. rewrite (fint_B2R 0) by lia. apply Rabs_le_inv in Ac. lra. }
  pose proof (bpow_gt_0 radix2 j) as Pj.
  destruct (Req_dec (B2R a) 1) as [E|N].
  - unfold part_scaling_fn_fp. rewrite (pydiv_ok _ (fint 300)) by exact f300. cbn [bind].
    replace (feq a (fint 1)) with true; [|symmetry; apply feq_iff; [exact Fa|reflexivity|]; rewrite one_B2R; exact E]. cbn [bind].
    rewrite fdiv0 by exact P0. exists (fint 0). split; [reflexivity|]. split; [reflexivity|].
    rewrite (fint_B2R 0) by lia. split; [lra|]. rewrite kv_zero; [now rewrite Rminus_eq_0|lra|].
    rewrite <- bpow2. replace (bpow radix2 j) with (IZR l / B2R a)%R; [rewrite E; lra|]. rewrite Ea in *. field. split; [lra|].
    intros G. rewrite G in E. unfold Rdiv in E. rewrite Rmult_0_l in E. lra.
  - set (first := if Req_EM_T (B2R a) (/ 2) then 1 else 0).
    assert (C : first = 0 /\ (/ 2 < B2R a)%R \/ first = 1 /\ B2R a = (/ 2)%R).
    { unfold first. destruct (Req_EM_T (B2R a) (/ 2)); [right; auto|left; split; [reflexivity|lra]]. }
    destruct (part_trap fexp a first Hf Fa ltac:(lra) C) as (v & -> & Fv & Pv & Av). cbn [bind]. exists (fdiv v c). split; [reflexivity|].
    set (V := trapezium 2 (B2R a) first 300) in *.
    assert (EK : kv 2 300 j l = (V / Cn)%R).
    { unfold kv. rewrite <- !bpow2. rewrite !rltb_false by lra. rewrite <- Ea. rewrite quad_trap_end by (lra || lia). unfold V, Cn.
      replace (1 / 2)%R with (/ 2)%R by lra. f_equal. destruct C as [[-> C]|[-> C]]; [apply quad_trap_in; lra || lia|].
      rewrite C. replace (/ 2)%R with (1 / 2)%R by lra. apply quad_trap_end; lra || lia. }
    rewrite EK. apply quot_acc; auto. clear EK Av.
    destruct C as [[EC C]|[EC C]].
    + pose proof (ratio_err 2 (B2R a) 300 ltac:(lra) ltac:(lia) ltac:(lra)) as G. pose proof (gen_range 2 (B2R a) ltac:(lra) ltac:(lra)).
      pose proof quad_err2. replace (1 / 2)%R with (/ 2)%R in G by lra. fold Cn in G. unfold V. rewrite EC. set (W := trapezium 2 (B2R a) 0 300) in *.
      assert (P : (0 <= W)%R).
      { unfold W. rewrite <- quad_trap_in by (lra || lia). destruct (Rlt_or_le 0 (quad 2 (B2R a) 300)) as [Q|Q]; [lra|].
        pose proof (quad_pos 2 ltac:(lra) (B2R a) 300 ltac:(lra) ltac:(lia)). lra. }
      split; [exact P|]. apply Rabs_le_inv in G. apply Rmult_le_reg_r with (/ Cn)%R; [apply Rinv_0_lt_compat; lra|].
      rewrite Rmult_assoc, Rinv_r by lra. unfold Rdiv in G. lra.
    + unfold V. rewrite EC, C. fold Cn. lra.
Qed.

Lemma e18 : (262144 * eps)%R = bpow radix2 (-35).
Proof. change (bpow radix2 (-35)) with (/ 34359738368)%R. unfold eps. lra. Qed.

Lemma k_acc fexp fpow J L k r : 1 <= L <= 2 ^ 53 -> accurate_exp fexp -> exact_powers fpow J -> j_max L 2 = Ok J ->
  k_lam_fp fexp fpow J L (fint 2) 300 = Ok k -> k_lam L 2 300 = Ok r ->
  forall j l, 0 <= j <= J + 1 -> 0 <= l < L ->
    is_finite (get2 k j l) = true /\ (0 <= B2R (get2 k j l))%R /\ (Rabs (B2R (get2 k j l) - get2 r j l) <= 200000 * eps)%R.
Proof.
  intros HL Hf HP EJ Ek Er j l Hj Hl. rewrite (k_lam_ok 2 ltac:(lra) L 300 J ltac:(lia) ltac:(lia) EJ) in Er. apply Ok_inj in Er. subst r.
  destruct (k_lam_fp_inv _ _ _ _ _ _ _ Ek) as (il & c & Ei & Ec & _ & _ & _ & _ & HK).
  rewrite il_is_half in Ei. apply Ok_inj in Ei. subst il.
  destruct (norm_acc fexp Hf) as (c' & Ec' & Fc & Ac). rewrite Ec in Ec'. apply Ok_inj in Ec'. subst c'.
  destruct (entry_acc fexp fpow J j l c Hf HP Hj ltac:(lia) Fc Ac) as (v & Ev & Fv & Pv & Av).
  rewrite HK in Ev by lia. apply Ok_inj in Ev. subst v. rewrite (get2_mk (J + 2) L) by lia. auto.
Qed.

(*% the computed generating function against the one of exact arithmetic *)
(*@ C64_generating_function_rounding *)
Lemma fp2_k : forall fexp fpow J L k r, 1 <= L <= 2 ^ 53 ->
  accurate_exp fexp -> exact_powers fpow J -> j_max L 2 = Ok J ->
  k_lam_fp fexp fpow J L (fint 2) 300 = Ok k -> k_lam L 2 300 = Ok r ->
  forall j l, 0 <= j <= J + 1 -> 0 <= l < L ->
    is_finite (get2 k j l) = true /\ (0 <= B2R (get2 k j l))%R /\
    (Rabs (B2R (get2 k j l) - get2 r j l) <= bpow radix2 (-35))%R.
Proof.
  intros fexp fpow J L k r HL Hf HP EJ Ek Er j l Hj Hl.
  destruct (k_acc _ _ _ _ _ _ HL Hf HP EJ Ek Er j l Hj Hl) as (F & P & A). split; [exact F|]. split; [exact P|].
  rewrite <- e18. pose proof eps_small. lra.
Qed.

(*% and against the documented integrals *)
(*@ C64_generating_function_accuracy *)
Lemma fp2_gen : forall fexp fpow J L k, 1 <= L <= 2 ^ 53 ->
  accurate_exp fexp -> exact_powers fpow J -> j_max L 2 = Ok J ->
  k_lam_fp fexp fpow J L (fint 2) 300 = Ok k ->
  forall j l, 0 <= j <= J + 1 -> 0 <= l < L ->
    (Rabs (B2R (get2 k j l) - generating 2 (IZR l / powerRZ 2 j)) <= quad_error 2 300 + bpow radix2 (-35))%R.
Proof.
  intros fexp fpow J L k HL Hf HP EJ Ek j l Hj Hl.
  pose proof (k_lam_ok 2 ltac:(lra) L 300 J ltac:(lia) ltac:(lia) EJ) as Er.
  destruct (fp2_k _ _ _ _ _ _ HL Hf HP EJ Ek Er j l Hj Hl) as (_ & _ & A).
  pose proof (k_accuracy L 2 300 _ j l ltac:(lia) ltac:(lra) ltac:(lia) Er ltac:(cbn [rows mk2]; lia) Hl) as B.
  apply Rabs_le_inv in A, B. apply Rabs_le. lra.
Qed.

(** ** squares of the filters *)

Lemma diff_acc k1 k0 r1 r0 : is_finite k1 = true -> is_finite k0 = true -> (0 <= B2R k1)%R -> (0 <= B2R k0)%R ->
  (0 <= r1 <= 201 / 200)%R -> (0 <= r0 <= 201 / 200)%R ->
  (Rabs (B2R k1 - r1) <= 200000 * eps)%R -> (Rabs (B2R k0 - r0) <= 200000 * eps)%R ->
  is_finite (fsub k1 k0) = true /\ (Rabs (B2R (fsub k1 k0) - (r1 - r0)) <= 400002 * eps)%R /\
  (flt (fsub k1 k0) (fint 0) = true -> (B2R k1 < B2R k0)%R).
Proof.
  intros F1 F0 P1 P0 H1 H0 A1 A0. apply Rabs_le_inv in A1, A0.
  assert (He : (0 < eps <= / 9007199254740992)%R) by (unfold eps; lra).
  assert (U : (Rabs (B2R k1 - B2R k0) <= 2)%R) by (apply Rabs_le; lra).
  destruct (fsub_ok k1 k0 F1 F0) as [F E]; [apply big; change (2 ^ 53) with 9007199254740992; lra|].
  split; [exact F|]. split.
  - rewrite E. pose proof (rnd_abs2 _ U) as R. apply Rabs_le_inv in R. apply Rabs_le. lra.
  - intros G. apply flt_iff in G; [|exact F|reflexivity]. rewrite (fint_B2R 0), E in G by lia.
    apply Rnot_le_lt. intros Q. pose proof (rnd_pos (B2R k1 - B2R k0)). lra.
Qed.
Lemma clip_acc d x : is_finite d = true -> (Rabs (B2R d - x) <= 400002 * eps)%R -> (x <= 201 / 200)%R ->
  (Rabs (B2R (fsqrt (fclip d)) ^ 2 - Rmax 0 x) <= 400010 * eps)%R.
Proof.
  intros F A Hx. pose proof (fclip_sqrt d F) as H. cbv zeta in H. apply Rabs_le_inv in A.
  assert (He : (0 < eps <= / 9007199254740992)%R) by (unfold eps; lra). set (m := Rmax 0 (B2R d)) in *.
  assert (Hm : (0 <= m <= 2)%R) by (unfold m, Rmax; destruct (Rle_dec 0 (B2R d)); lra).
  assert (G : ((2 * eps + eps * eps) * m <= 6 * eps)%R).
  { apply Rle_trans with ((2 * eps + 1 * eps) * 2)%R; [|lra]. apply Rmult_le_compat; nra. }
  assert (G2 : (Rabs (m - Rmax 0 x) <= 400002 * eps)%R).
  { unfold m, Rmax. apply Rabs_le. destruct (Rle_dec 0 (B2R d)), (Rle_dec 0 x); lra. }
  apply Rabs_le_inv in H, G2. apply Rabs_le. lra.
Qed.
Lemma sqrt_acc v x : is_finite v = true -> (0 <= B2R v)%R -> (Rabs (B2R v - x) <= 200000 * eps)%R -> (x <= 201 / 200)%R ->
  (Rabs (B2R (fsqrt v) ^ 2 - x) <= 200006 * eps)%R.
Proof.
  intros F P A Hx. destruct (fsqrt_ok v F P) as [_ ->]. pose proof (sqrt_sq v F P) as H. apply Rabs_le_inv in A.
  assert (He : (0 < eps <= / 9007199254740992)%R) by (unfold eps; lra).
  assert (G : ((2 * eps + eps * eps) * B2R v <= 6 * eps)%R).
  { apply Rle_trans with ((2 * eps + 1 * eps) * 2)%R; [|lra]. apply Rmult_le_compat; nra. }
  apply Rabs_le_inv in H. apply Rabs_le. lra.
Qed.

Section ACC.
Variables (fexp : f64 -> f64) (fpow : f64 -> Z -> f64) (J L : Z) (k : arr2 f64) (r : arr2 R).
Hypothesis (HL : 1 <= L <= 2 ^ 53) (Hf : accurate_exp fexp) (HP : exact_powers fpow J) (EJ : j_max L 2 = Ok J).
Hypothesis (Ek : k_lam_fp fexp fpow J L (fint 2) 300 = Ok k) (Er : k_lam L 2 300 = Ok r).
Let K (j l : Z) := generating 2 (IZR l / powerRZ 2 j).
Let q := quad_error 2 300.

Lemma r_near j l : 0 <= j <= J + 1 -> 0 <= l < L -> (K j l - q <= get2 r j l <= K j l + q)%R.
Proof. intros Hj Hl. apply (k_near L 2 J r); auto; lra || lia. Qed.
Lemma K_rng j l : 0 <= l -> (0 <= K j l <= 1)%R.
Proof. intros. apply (K_range 2 ltac:(lra) j l). assumption. Qed.
Lemma r_range j l : 0 <= j <= J + 1 -> 0 <= l < L -> (0 <= get2 r j l <= 201 / 200)%R.
Proof.
  intros Hj Hl. split; [apply (k_nonneg L 2 J r); auto; lra || lia|].
  pose proof (r_near j l Hj Hl). pose proof (K_rng j l ltac:(lia)). pose proof quad_err2. unfold q in *. lra.
Qed.
Lemma k_fin j l : 0 <= j <= J + 1 -> 0 <= l < L -> is_finite (get2 k j l) = true /\ (0 <= B2R (get2 k j l))%R /\
  (Rabs (B2R (get2 k j l) - get2 r j l) <= 200000 * eps)%R.
Proof. intros Hj Hl. exact (k_acc fexp fpow J L k r HL Hf HP EJ Ek Er j l Hj Hl). Qed.
Lemma J_nonneg : 0 <= J.
Proof. exact (j_max_nonneg L 2 J ltac:(lia) ltac:(lra) EJ). Qed.
Lemma L_le : (IZR L <= bpow radix2 J)%R.
Proof.
  destruct (j_max_spec L 2 ltac:(lia) ltac:(lra)) as (J' & EJ' & H). rewrite EJ in EJ'. apply Ok_inj in EJ'. subst J'. rewrite bpow2. lra.
Qed.
Lemma is_norm : normalised fexp (fint 2).
Proof.
  destruct (norm_acc fexp Hf) as (c & Ec & Fc & Ac). exists (fdiv (fint 1) (fint 2)), c.
  split; [apply il_is_half|]. split; [exact Ec|]. apply flt_true; [reflexivity|exact Fc|]. rewrite (fint_B2R 0) by lia.
  pose proof Cn_lb. apply Rabs_le_inv in Ac. unfold eps in Ac. lra.
Qed.
Lemma d_acc j l : 0 <= j <= J -> 0 <= l < L -> let d := fsub (get2 k (j + 1) l) (get2 k j l) in
  is_finite d = true /\ (Rabs (B2R d - (get2 r (j + 1) l - get2 r j l)) <= 400002 * eps)%R /\
  (flt d (fint 0) = true -> (B2R (get2 k (j + 1) l) < B2R (get2 k j l))%R).
Proof.
  intros Hj Hl. destruct (k_fin j l ltac:(lia) Hl) as (F0 & P0 & A0). destruct (k_fin (j + 1) l ltac:(lia) Hl) as (F1 & P1 & A1).
  apply diff_acc; auto; apply r_range; auto; lia.
Qed.
Lemma d_clip j l : 0 <= j <= J -> 0 <= l < L -> let d := fsub (get2 k (j + 1) l) (get2 k j l) in
  (Rabs (B2R (fsqrt (fclip d)) ^ 2 - Rmax 0 (get2 r (j + 1) l - get2 r j l)) <= 400010 * eps)%R.
Proof.
  intros Hj Hl. destruct (d_acc j l Hj Hl) as (F & A & _). apply clip_acc; auto.
  pose proof (r_range j l ltac:(lia) Hl). pose proof (r_range (j + 1) l ltac:(lia) Hl). lra.
Qed.
(** a negative difference *)
Lemma neg_d j l : 0 <= j <= J -> 0 <= l < L -> flt (fsub (get2 k (j + 1) l) (get2 k j l)) (fint 0) = true ->
  (IZR l < bpow radix2 j)%R /\ get2 k (j + 1) l = fint 1 /\ (1 < B2R (get2 k j l))%R.
Proof.
  intros Hj Hl H. destruct (d_acc j l Hj Hl) as (_ & _ & G). specialize (G H).
  pose proof (exact_incr fpow J ltac:(pose proof J_nonneg; lia) HP) as HI.
  destruct (k_fin (j + 1) l ltac:(lia) Hl) as (_ & P1 & _).
  assert (Hlt : (IZR l < bpow radix2 j)%R).
  { apply Rnot_le_lt. intros Q. rewrite (kl_zero fexp fpow J L (fint 2) k Ek ltac:(lia) HI is_norm j l) in G; try lia.
    - rewrite (fint_B2R 0) in G by lia. lra.
    - destruct (HP j ltac:(lia)) as [_ ->]. exact Q. }
  assert (E1 : get2 k (j + 1) l = fint 1).
  { apply (kl_one fexp fpow J L (fint 2) k Ek ltac:(lia) HI); try lia. replace (j + 1 - 1) with j by lia.
    destruct (HP j ltac:(lia)) as [_ ->]. exact Hlt. }
  split; [exact Hlt|]. split; [exact E1|]. rewrite E1, one_B2R in G. exact G.
Qed.
End ACC.

(*% the squares of the computed filters against those of exact arithmetic *)
(*@ C64_vectorised_filters_rounding *)
Lemma fp2_vec : forall fexp fpow J L J_min psi phi rpsi rphi, 1 <= L <= 2 ^ 53 ->
  accurate_exp fexp -> exact_powers fpow J -> j_max L 2 = Ok J ->
  filters_axisym_vectorised_fp fexp fpow J L J_min (fint 2) = Ok (psi, phi) ->
  filters_axisym_vectorised L J_min 2 = Ok (rpsi, rphi) ->
  forall l, 0 <= l < L ->
    (Rabs (B2R (get1 phi l) ^ 2 - get1 rphi l ^ 2) <= bpow radix2 (-35))%R /\
    forall j, 0 <= j <= J -> (Rabs (B2R (get2 psi j l) ^ 2 - get2 rpsi j l ^ 2) <= bpow radix2 (-34))%R.
Proof.
  intros fexp fpow J L J_min psi phi rpsi rphi HL Hf HP EJ EF ER l Hl.
  pose proof (k_lam_ok 2 ltac:(lra) L 300 J ltac:(lia) ltac:(lia) EJ) as Er. set (r := mk2 (J + 2) L (kv 2 300)) in *.
  apply vec_fp_inv in EF as (HJ & k & Ek & _ & _ & _ & A & D).
  destruct (vec_from_k L 2 J_min J rpsi rphi r ltac:(lia) ltac:(lra) ER Er EJ l Hl) as [RP RS].
  change (bpow radix2 (-35)) with (/ 34359738368)%R. change (bpow radix2 (-34)) with (/ 17179869184)%R.
  assert (He : (0 < eps <= / 9007199254740992)%R) by (unfold eps; lra). split.
  - rewrite D, RP by exact Hl.
    destruct (k_fin fexp fpow J L k r HL Hf HP EJ Ek Er J_min l ltac:(lia) Hl) as (F & P & B).
    pose proof (r_range J L r HL EJ Er J_min l ltac:(lia) Hl) as RR. rewrite pow2_sqrt by lra.
    eapply Rle_trans; [apply sqrt_acc; auto; lra|]. lra.
  - intros j Hj. rewrite A, RS by auto. rewrite pow2_sqrt by apply Rmax_l.
    eapply Rle_trans; [exact (d_clip fexp fpow J L k r HL Hf HP EJ Ek Er j l Hj Hl)|]. lra.
Qed.

(*% and against the documented integrals *)
(*@ C64_vectorised_filters_accuracy *)
Lemma fp2_vec_gen : forall fexp fpow J L J_min psi phi, 1 <= L <= 2 ^ 53 ->
  accurate_exp fexp -> exact_powers fpow J -> j_max L 2 = Ok J ->
  filters_axisym_vectorised_fp fexp fpow J L J_min (fint 2) = Ok (psi, phi) ->
  forall l, 0 <= l < L ->
    (Rabs (B2R (get1 phi l) ^ 2 - generating 2 (IZR l / powerRZ 2 J_min)) <= quad_error 2 300 + bpow radix2 (-35))%R /\
    forall j, 0 <= j <= J ->
      (Rabs (B2R (get2 psi j l) ^ 2 - (generating 2 (IZR l / powerRZ 2 (j + 1)) - generating 2 (IZR l / powerRZ 2 j)))
       <= 2 * quad_error 2 300 + bpow radix2 (-34))%R.
Proof.
  intros fexp fpow J L J_min psi phi HL Hf HP EJ EF l Hl.
  assert (HJ : 0 <= J_min < J) by (apply vec_fp_inv in EF as (HJ & _); exact HJ).
  destruct (valid_range L 1 2 J J_min 0 0 ltac:(lia) ltac:(lia) ltac:(lra) EJ HJ) as (_ & (rpsi & rphi & ER & _) & _).
  destruct (fp2_vec _ _ _ _ _ _ _ _ _ HL Hf HP EJ EF ER l Hl) as [A1 A2].
  destruct (vec_accuracy L 2 J_min J rpsi rphi ltac:(lia) ltac:(lra) ER EJ l Hl) as [B1 B2].
  split; [apply Rabs_le_inv in A1, B1; apply Rabs_le; lra|]. intros j Hj. specialize (A2 j Hj). specialize (B2 j Hj).
  apply Rabs_le_inv in A2, B2. apply Rabs_le. lra.
Qed.

(** the looped filters: a negative difference copies the value of the previous multipole *)
Lemma loop_fp_prev fexp fpow J L J_min lam psi phi k : filters_axisym_fp fexp fpow J L J_min lam = Ok (psi, phi) ->
  k_lam_fp fexp fpow J L lam 300 = Ok k ->
  forall j l, J_min <= j <= J -> 1 <= l < L -> flt (fsub (get2 k (j + 1) l) (get2 k j l)) (fint 0) = true -> get2 psi j l = get2 psi j (l - 1).
Proof.
  unfold filters_axisym_fp. destruct ((J <=? J_min) || (J_min <? 0)) eqn:E; [discriminate|].
  apply orb_false_iff in E as [E1%Z.leb_gt E2%Z.ltb_ge]. intros H Hk. rewrite Hk in H. cbn [bind] in H.
  destruct (k_lam_fp_inv _ _ _ _ _ _ _ Hk) as (il & c & _ & _ & HJ & HL & Rk & Ck & _).
  rewrite zeros2_ok, zeros1_ok in H by lia. cbn [bind] in H.
  rewrite (for_fill1 L _ 0 L (fun l => fsqrt (get2 k J_min l))) in H; [|lia|lia|lia|].
  2:{ intros l g Hl. rewrite rd2_ok by lia. reflexivity. }
  cbn [bind] in H. apply bind_inv in H as ([[psi' pt] tm] & H & E). injection E as -> <-.
  set (d := fun j l => fsub (get2 k (j + 1) l) (get2 k j l)).
  set (st_ok := fun (st : arr2 f64 * f64 * option f64) => snd st = None \/ snd st = Some (snd (fst st))).
  set (P := fun (j : Z) (st : arr2 f64 * f64 * option f64) => let a := fst (fst st) in
    rows a = J + 1 /\ cols a = L /\ st_ok st /\
    (forall j' l, J_min <= j' < j -> 1 <= l < L -> flt (d j' l) (fint 0) = true -> get2 a j' l = get2 a j' (l - 1))).
  assert (HP : P (J + 1) (psi, pt, tm)).
  { refine (for_inv P J_min (J + 1) _ _ _ _ _ _ H); [lia| |].
    - unfold P. cbn [fst]. split; [reflexivity|]. split; [reflexivity|]. split; [left; reflexivity|]. lia.
    - intros j a b Hj (A & B & S & D) Hb.
      set (Q := fun (m : Z) (st : arr2 f64 * f64 * option f64) => let a := fst (fst st) in
        rows a = J + 1 /\ cols a = L /\ st_ok st /\ (0 < m -> snd (fst st) = get2 a j (m - 1)) /\
        (forall j' l, J_min <= j' < j -> 1 <= l < L -> flt (d j' l) (fint 0) = true -> get2 a j' l = get2 a j' (l - 1)) /\
        (forall l, 1 <= l < m -> flt (d j l) (fint 0) = true -> get2 a j l = get2 a j (l - 1))).
      assert (HQ : Q L b).
      { refine (for_inv Q 0 L _ _ b _ _ _ Hb); [lia| |].
        - split; [exact A|]. split; [exact B|]. split; [exact S|]. split; [lia|]. split; [exact D|]. lia.
        - intros m [[a' p'] t'] [[b' p2] t2] Hm (A' & B' & S' & M' & C' & D') Hb'. cbn [fst snd] in *.
          rewrite !rd2_ok in Hb' by lia. cbn [bind] in Hb'. fold (d j m) in Hb'. rewrite !wr2_ok in Hb' by lia.
          assert (HW : exists v, b' = mk2 (J + 1) L (fun p q => if (p =? j) && (q =? m) then v else get2 a' p q) /\ p2 = v /\ t2 = Some v /\
             (flt (d j m) (fint 0) = true -> v = p')).
          { destruct (flt (d j m) (fint 0)); cbn [bind] in Hb'.
            - destruct t' as [t'|]; [|discriminate]. injection Hb' as <- <- <-. rewrite A', B'. unfold st_ok in S'. cbn [fst snd] in S'.
              destruct S' as [S'|S']; [discriminate|]. injection S' as ->. eexists. split; [reflexivity|]. auto.
            - injection Hb' as <- <- <-. rewrite A', B'. eexists. split; [reflexivity|]. split; [reflexivity|]. split; [reflexivity|]. discriminate. }
          destruct HW as (v & -> & -> & -> & Hv). unfold Q. cbn [fst snd rows cols mk2].
          split; [reflexivity|]. split; [reflexivity|]. split; [right; reflexivity|]. split; [|split].
          + intros _. rewrite get2_mk by lia. replace (m + 1 - 1) with m by lia. now rewrite !Z.eqb_refl.
          + intros j' l Hj' Hl Hd. rewrite !get2_mk by lia. destruct (Z.eqb_spec j' j); [lia|]. cbn [andb]. auto.
          + intros l Hl Hd. rewrite !get2_mk by lia. rewrite Z.eqb_refl. cbn [andb].
            destruct (Z.eqb_spec (l - 1) m); [lia|]. destruct (Z.eqb_spec l m) as [->|].
            * rewrite (Hv Hd). apply M'. lia.
            * apply D'; auto. lia. }
      destruct HQ as (A' & B' & S' & M' & C' & D'). split; [exact A'|]. split; [exact B'|]. split; [exact S'|].
      intros j' l Hj' Hl Hd. destruct (Z.eq_dec j' j) as [->|]; [apply D'; auto|apply C'; auto; lia]. }
  destruct HP as (_ & _ & _ & D). cbn [fst] in D. intros j l Hj Hl Hd. apply D; auto; lia.
Qed.

(** a copied value is small *)
Lemma fp_copied fexp fpow J L J_min psi phi k : 1 <= L <= 2 ^ 53 -> accurate_exp fexp -> exact_powers fpow J -> j_max L 2 = Ok J ->
  filters_axisym_fp fexp fpow J L J_min (fint 2) = Ok (psi, phi) -> k_lam_fp fexp fpow J L (fint 2) 300 = Ok k -> 0 <= J_min ->
  forall j l, J_min <= j <= J -> 0 <= l < L -> flt (fsub (get2 k (j + 1) l) (get2 k j l)) (fint 0) = true ->
  (0 <= B2R (get2 psi j l) ^ 2 <= 2 * quad_error 2 300 + 600010 * eps)%R.
Proof.
  intros HL Hf HP EJ EF Ek HJm j l Hj Hl0. assert (Hl1 : 0 <= l) by lia.
  pose proof (k_lam_ok 2 ltac:(lra) L 300 J ltac:(lia) ltac:(lia) EJ) as Er. set (r := mk2 (J + 2) L (kv 2 300)) in *.
  revert l Hl1 Hl0.
  apply (Z_lt_induction (fun l => 0 <= l < L -> flt (fsub (get2 k (j + 1) l) (get2 k j l)) (fint 0) = true -> (0 <= B2R (get2 psi j l) ^ 2 <= 2 * quad_error 2 300 + 600010 * eps)%R)).
  intros l IH Hl Hneg. split; [apply pow2_ge_0|].
  destruct (neg_d fexp fpow J L k r HL Hf HP EJ Ek Er j l ltac:(lia) Hl Hneg) as (Hlt & E1 & Hgt).
  assert (He : (0 < eps <= / 9007199254740992)%R) by (unfold eps; lra).
  assert (H1 : 1 <= l).
  { destruct (Z.eq_dec l 0) as [->|]; [|lia]. exfalso.
    rewrite (kl_one fexp fpow J L (fint 2) k Ek ltac:(lia) (exact_incr fpow J ltac:(lia) HP) j 0) in Hgt; [rewrite one_B2R in Hgt; lra|lia|lia|].
    destruct (HP (j - 1) ltac:(lia)) as [_ ->]. apply bpow_gt_0. }
  rewrite (loop_fp_prev _ _ _ _ _ _ _ _ k EF Ek j l Hj ltac:(lia) Hneg).
  destruct (flt (fsub (get2 k (j + 1) (l - 1)) (get2 k j (l - 1))) (fint 0)) eqn:N; [apply IH; auto; lia|].
  assert (EQ : get2 psi j (l - 1) = fsqrt (fclip (fsub (get2 k (j + 1) (l - 1)) (get2 k j (l - 1))))).
  { apply loop_fp_inv in EF as (_ & k' & Hk' & _ & _ & _ & A & _). rewrite Ek in Hk'. apply Ok_inj in Hk'. subst k'.
    unfold fclip. rewrite N. apply A; auto; lia. }
  rewrite EQ. pose proof (d_clip fexp fpow J L k r HL Hf HP EJ Ek Er j (l - 1) ltac:(lia) ltac:(lia)) as C. cbv zeta in C.
  assert (R1 : get2 r (j + 1) (l - 1) = 1%R).
  { apply (QuadProps.k_one L 2 J r); auto; try lra; try lia. rewrite <- bpow2, minus_IZR. lra. }
  rewrite R1 in C.
  destruct (k_fin fexp fpow J L k r HL Hf HP EJ Ek Er j l ltac:(lia) Hl) as (_ & _ & A).
  pose proof (r_near J L r HL EJ Er j l ltac:(lia) Hl) as G1. pose proof (r_near J L r HL EJ Er j (l - 1) ltac:(lia) ltac:(lia)) as G2.
  pose proof (K_dec 2 ltac:(lra) j l H1) as G3. cbv beta in G3. pose proof quad_err2. apply Rabs_le_inv in A, C.
  assert (M : (Rmax 0 (1 - get2 r j (l - 1)) <= 2 * quad_error 2 300 + 200000 * eps)%R) by (apply Rmax_lub; lra). lra.
Qed.

(*@ C64_looped_filters_accuracy *)
Lemma fp2_loop_gen : forall fexp fpow J L J_min psi phi, 1 <= L <= 2 ^ 53 ->
  accurate_exp fexp -> exact_powers fpow J -> j_max L 2 = Ok J ->
  filters_axisym_fp fexp fpow J L J_min (fint 2) = Ok (psi, phi) ->
  forall l, 0 <= l < L ->
    (Rabs (B2R (get1 phi l) ^ 2 - generating 2 (IZR l / powerRZ 2 J_min)) <= quad_error 2 300 + bpow radix2 (-35))%R /\
    forall j, J_min <= j <= J ->
      (Rabs (B2R (get2 psi j l) ^ 2 - (generating 2 (IZR l / powerRZ 2 (j + 1)) - generating 2 (IZR l / powerRZ 2 j)))
       <= 2 * quad_error 2 300 + bpow radix2 (-33))%R.
Proof.
  intros fexp fpow J L J_min psi phi HL Hf HP EJ EF l Hl.
  pose proof (k_lam_ok 2 ltac:(lra) L 300 J ltac:(lia) ltac:(lia) EJ) as Er. set (r := mk2 (J + 2) L (kv 2 300)) in *.
  pose proof EF as EF'. apply loop_fp_inv in EF' as (HJ & k & Ek & _ & _ & _ & A & _ & D).
  change (bpow radix2 (-35)) with (/ 34359738368)%R. change (bpow radix2 (-33)) with (/ 8589934592)%R.
  assert (He : (0 < eps <= / 9007199254740992)%R) by (unfold eps; lra). split.
  - rewrite D by exact Hl. destruct (k_fin fexp fpow J L k r HL Hf HP EJ Ek Er J_min l ltac:(lia) Hl) as (F & P & B).
    pose proof (r_range J L r HL EJ Er J_min l ltac:(lia) Hl) as RR. pose proof (r_near J L r HL EJ Er J_min l ltac:(lia) Hl) as RN.
    pose proof (sqrt_acc _ _ F P B ltac:(lra)) as S. apply Rabs_le_inv in S. apply Rabs_le. lra.
  - intros j Hj. pose proof (r_near J L r HL EJ Er j l ltac:(lia) Hl) as R0. pose proof (r_near J L r HL EJ Er (j + 1) l ltac:(lia) Hl) as R1.
    pose proof (K_step 2 ltac:(lra) j l ltac:(lia)) as KS. cbv beta in KS.
    destruct (flt (fsub (get2 k (j + 1) l) (get2 k j l)) (fint 0)) eqn:N.
    + pose proof (fp_copied _ _ _ _ _ _ _ _ HL Hf HP EJ EF Ek ltac:(lia) j l Hj Hl N) as C.
      destruct (neg_d fexp fpow J L k r HL Hf HP EJ Ek Er j l ltac:(lia) Hl N) as (_ & E1 & Hgt).
      destruct (k_fin fexp fpow J L k r HL Hf HP EJ Ek Er j l ltac:(lia) Hl) as (_ & _ & B).
      pose proof (K_rng (j + 1) l ltac:(lia)). apply Rabs_le_inv in B. pose proof quad_err2. apply Rabs_le. lra.
    + assert (EQ : get2 psi j l = fsqrt (fclip (fsub (get2 k (j + 1) l) (get2 k j l)))).
      { unfold fclip. rewrite N. apply A; auto. }
      rewrite EQ. pose proof (d_clip fexp fpow J L k r HL Hf HP EJ Ek Er j l ltac:(lia) Hl) as C. cbv zeta in C. apply Rabs_le_inv in C.
      apply Rabs_le. unfold Rmax in C. destruct (Rle_dec 0 (get2 r (j + 1) l - get2 r j l)); lra.
Qed.

(*% the squares of the computed filters sum to 1 up to the quadrature and rounding errors *)
(*@ C64_vectorised_filters_admissible *)
Lemma fp2_adm : forall fexp fpow J L J_min psi phi, 1 <= L <= 2 ^ 53 ->
  accurate_exp fexp -> exact_powers fpow J -> j_max L 2 = Ok J ->
  filters_axisym_vectorised_fp fexp fpow J L J_min (fint 2) = Ok (psi, phi) ->
  forall l, 0 <= l < L ->
    (1 - bpow radix2 (-51) <= fp_total psi phi J_min J l <= 1 + quad_error 2 300 + bpow radix2 (-34))%R.
Proof.
  intros fexp fpow J L J_min psi phi HL Hf HP EJ EF l Hl.
  pose proof (k_lam_ok 2 ltac:(lra) L 300 J ltac:(lia) ltac:(lia) EJ) as Er. set (r := mk2 (J + 2) L (kv 2 300)) in *.
  pose proof EF as EF'. apply vec_fp_inv in EF' as (HJ & k & Ek & _).
  pose proof (exact_incr fpow J ltac:(lia) HP) as HI. pose proof quad_err2.
  change (bpow radix2 (-34)) with (/ 17179869184)%R. assert (He : (0 < eps <= / 9007199254740992)%R) by (unfold eps; lra).
  destruct (fp_excess fexp fpow J L J_min (fint 2) psi phi k l ltac:(lia) HI) as [[_ A]|(j & Hj & Hgt & A)]; auto.
  - destruct (HP J ltac:(lia)) as [_ ->]. exact (L_le J L HL EJ).
  - apply (is_norm fexp Hf).
  - intros j Hj. destruct (k_fin fexp fpow J L k r HL Hf HP EJ Ek Er j l ltac:(lia) Hl) as (F & P & _). auto.
  - rewrite <- eps4 in *. apply Rabs_le_inv in A. lra.
  - rewrite <- eps4 in *. apply Rabs_le_inv in A. destruct (k_fin fexp fpow J L k r HL Hf HP EJ Ek Er j l ltac:(lia) Hl) as (_ & _ & B).
    pose proof (r_near J L r HL EJ Er j l ltac:(lia) Hl) as RN. pose proof (K_rng j l ltac:(lia)). apply Rabs_le_inv in B.
    set (v := B2R (get2 k j l)) in *. assert (Hv : (1 < v <= 2)%R) by lra. split.
    + assert (v * (1 - 4 * eps) >= 1 * (1 - 4 * eps))%R by (apply Rle_ge, Rmult_le_compat_r; lra). lra.
    + assert (4 * eps * v <= 4 * eps * 2)%R by (apply Rmult_le_compat_l; lra). lra.
Qed.

(*@ C64_looped_filters_admissible *)
Lemma fp2_adm_loop : forall fexp fpow J L J_min psi phi, 1 <= L <= 2 ^ 53 ->
  accurate_exp fexp -> exact_powers fpow J -> j_max L 2 = Ok J ->
  filters_axisym_fp fexp fpow J L J_min (fint 2) = Ok (psi, phi) ->
  forall l, 0 <= l < L ->
    (1 - bpow radix2 (-51) <= fp_total psi phi J_min J l <= 1 + 3 * quad_error 2 300 + bpow radix2 (-32))%R.
Proof.
  intros fexp fpow J L J_min psi phi HL Hf HP EJ EF l Hl.
  pose proof (k_lam_ok 2 ltac:(lra) L 300 J ltac:(lia) ltac:(lia) EJ) as Er. set (r := mk2 (J + 2) L (kv 2 300)) in *.
  pose proof EF as EF'. apply loop_fp_inv in EF' as (HJ & k & Ek & _ & _ & _ & A & _ & D).
  destruct (fp2_filters_total fexp fpow J L J_min ltac:(lia) HJ HP) as (_ & vpsi & vphi & EV).
  pose proof (fp2_adm _ _ _ _ _ _ _ HL Hf HP EJ EV l Hl) as V.
  apply vec_fp_inv in EV as (_ & k' & Ek' & _ & _ & _ & VA & VD). rewrite Ek in Ek'. apply Ok_inj in Ek'. subst k'.
  pose proof quad_err2. change (bpow radix2 (-34)) with (/ 17179869184)%R in V. change (bpow radix2 (-32)) with (/ 4294967296)%R.
  assert (He : (0 < eps <= / 9007199254740992)%R) by (unfold eps; lra).
  assert (E : exists e, fp_total psi phi J_min J l = (fp_total vpsi vphi J_min J l + e)%R /\ (0 <= e <= 2 * quad_error 2 300 + 600010 * eps)%R).
  { unfold fp_total. rewrite D, VD by exact Hl.
    assert (S : forall j, J_min <= j <= J -> flt (fsub (get2 k (j + 1) l) (get2 k j l)) (fint 0) = false -> get2 psi j l = get2 vpsi j l).
    { intros j Hj N. rewrite VA by lia. unfold fclip. rewrite N. apply A; auto. }
    assert (S1 : forall j, J_min <= j <= J -> flt (fsub (get2 k (j + 1) l) (get2 k j l)) (fint 0) = true -> B2R (get2 vpsi j l) = 0%R).
    { intros j Hj N. rewrite VA by lia. unfold fclip. rewrite N. reflexivity. }
    destruct (existsb (fun j => flt (fsub (get2 k (j + 1) l) (get2 k j l)) (fint 0)) (zrange J_min (J + 1))) eqn:X.
    - apply existsb_exists in X as (j0 & I & N0). apply In_zrange in I.
      exists (B2R (get2 psi j0 l) ^ 2)%R. split.
      + rewrite Rplus_assoc. f_equal.
        replace (B2R (get2 psi j0 l) ^ 2)%R with (zrsum (J - J_min + 1) (fun i => if i =? j0 - J_min then (B2R (get2 psi j0 l) ^ 2)%R else 0%R)).
        * rewrite zrsum_add. apply zrsum_ext. intros i Hi. destruct (Z.eqb_spec i (j0 - J_min)) as [->|Ne].
          -- replace (J_min + (j0 - J_min)) with j0 by lia. rewrite (S1 j0) by (auto; lia). ring.
          -- rewrite Rplus_0_r. f_equal. f_equal. apply S; [lia|]. apply not_true_iff_false. intros N1. 
             destruct (neg_d fexp fpow J L k r HL Hf HP EJ Ek Er j0 l ltac:(lia) Hl N0) as (L0 & _ & G0).
             destruct (neg_d fexp fpow J L k r HL Hf HP EJ Ek Er (J_min + i) l ltac:(lia) Hl N1) as (L1 & _ & G1).
             pose proof (exact_incr fpow J ltac:(lia) HP) as HI.
             assert (U : forall p q, 0 <= p -> p < q -> q <= J -> (IZR l < bpow radix2 p)%R -> (1 < B2R (get2 k q l))%R -> False).
             { intros p q Hp Hpq Hq HA HB. rewrite (kl_one fexp fpow J L (fint 2) k Ek ltac:(lia) HI q l) in HB; [rewrite one_B2R in HB; lra|lia|lia|].
               destruct (HP (q - 1) ltac:(lia)) as [_ ->]. apply Rlt_le_trans with (1 := HA), bpow_le. lia. }
             destruct (Z_lt_le_dec j0 (J_min + i)); [apply (U j0 (J_min + i)); auto; lia|apply (U (J_min + i) j0); auto; lia].
        * rewrite (zrsum_single _ _ (j0 - J_min)); [now rewrite Z.eqb_refl|lia|]. intros i Hi Ne. destruct (Z.eqb_spec i (j0 - J_min)); [lia|reflexivity].
      + apply (fp_copied _ _ _ _ _ _ _ _ HL Hf HP EJ EF Ek); auto; lia.
    - exists 0%R. split; [|lra]. rewrite Rplus_0_r. f_equal. apply zrsum_ext. intros i Hi. f_equal. f_equal. apply S; [lia|].
      apply not_true_iff_false. intros N. rewrite <- not_true_iff_false in X. apply X, existsb_exists. exists (J_min + i). split; [apply In_zrange; lia|exact N]. }
  destruct E as (e & -> & He'). lra.
Qed.

(*% where the exact filter is above the rounding error, the looped filters have only rounding error too *)
(*@ C64_looped_filters_rounding *)
Lemma fp2_loop : forall fexp fpow J L J_min psi phi rpsi rphi, 1 <= L <= 2 ^ 53 ->
  accurate_exp fexp -> exact_powers fpow J -> j_max L 2 = Ok J ->
  filters_axisym_fp fexp fpow J L J_min (fint 2) = Ok (psi, phi) ->
  filters_axisym L J_min 2 = Ok (rpsi, rphi) ->
  forall l, 0 <= l < L ->
    (Rabs (B2R (get1 phi l) ^ 2 - get1 rphi l ^ 2) <= bpow radix2 (-35))%R /\
    forall j vpsi vphi, J_min <= j <= J -> filters_axisym_vectorised L J_min 2 = Ok (vpsi, vphi) ->
      (bpow radix2 (-34) < get2 vpsi j l ^ 2)%R ->
      (Rabs (B2R (get2 psi j l) ^ 2 - get2 rpsi j l ^ 2) <= bpow radix2 (-34))%R.
Proof.
  intros fexp fpow J L J_min psi phi rpsi rphi HL Hf HP EJ EF ER l Hl.
  pose proof (k_lam_ok 2 ltac:(lra) L 300 J ltac:(lia) ltac:(lia) EJ) as Er. set (r := mk2 (J + 2) L (kv 2 300)) in *.
  apply loop_fp_inv in EF as (HJ & k & Ek & _ & _ & _ & A & _ & D).
  destruct (loop_from_k L 2 J_min J rpsi rphi r ltac:(lia) ltac:(lra) ER Er EJ l Hl) as (RP & _ & RS).
  change (bpow radix2 (-35)) with (/ 34359738368)%R. change (bpow radix2 (-34)) with (/ 17179869184)%R.
  assert (He : (0 < eps <= / 9007199254740992)%R) by (unfold eps; lra). split.
  - rewrite D, RP by exact Hl.
    destruct (k_fin fexp fpow J L k r HL Hf HP EJ Ek Er J_min l ltac:(lia) Hl) as (F & P & B).
    pose proof (r_range J L r HL EJ Er J_min l ltac:(lia) Hl) as RR. rewrite pow2_sqrt by lra.
    eapply Rle_trans; [apply sqrt_acc; auto; lra|]. lra.
  - intros j vpsi vphi Hj EV Hb. destruct (vec_from_k L 2 J_min J vpsi vphi r ltac:(lia) ltac:(lra) EV Er EJ l Hl) as [_ VS].
    rewrite VS in Hb by lia. rewrite pow2_sqrt in Hb by apply Rmax_l. unfold Rmax in Hb.
    destruct (Rle_dec 0 (get2 r (j + 1) l - get2 r j l)) as [G|G]; [|lra].
    destruct (d_acc fexp fpow J L k r HL Hf HP EJ Ek Er j l ltac:(lia) Hl) as (F & B & N). apply Rabs_le_inv in B.
    assert (NN : flt (fsub (get2 k (j + 1) l) (get2 k j l)) (fint 0) = false).
    { apply flt_false; [exact F|reflexivity|]. rewrite fint_B2R by lia. cbn [IZR]. lra. }
    destruct (RS j Hj) as [HA _]. rewrite HA by lra. rewrite pow2_sqrt by lra.
    assert (EQ : get2 psi j l = fsqrt (fclip (fsub (get2 k (j + 1) l) (get2 k j l)))).
    { unfold fclip. rewrite NN. apply A; auto. }
    rewrite EQ. pose proof (d_clip fexp fpow J L k r HL Hf HP EJ Ek Er j l ltac:(lia) Hl) as C. cbv zeta in C.
    rewrite Rmax_right in C by lra. lra.
Qed.

(** an accurate exponential: exp to the nearest multiple of 2^-54 *)
Definition grid_exp (x : f64) : f64 :=
  binary_normalize 53 1024 gt53 lt53 mode_NE (ZnearestE (exp (B2R x) * bpow radix2 54)) (-54) false.
Lemma grid_accurate : accurate_exp grid_exp.
Proof.
  intros x F Hx. set (y := exp (B2R x)). assert (Hy : (0 < y <= / 4)%R).
  { split; [apply exp_pos|]. unfold y. apply Rle_trans with (exp (-2)).
    - destruct Hx as [Hx| ->]; [left; now apply exp_increasing|right; reflexivity].
    - change (-2)%R with (- (2))%R. rewrite exp_Ropp. apply Rinv_le_contravar; [lra|]. replace 2%R with (1 + 1)%R by ring. rewrite exp_plus.
      pose proof (exp_ineq1_le 1). assert (2 * 2 <= exp 1 * exp 1)%R by (apply Rmult_le_compat; lra). lra. }
  set (N := ZnearestE (y * bpow radix2 54)).
  assert (HN : (Rabs (IZR N - y * bpow radix2 54) <= / 2)%R).
  { rewrite Rabs_minus_sym. apply (Znearest_half (fun t => negb (Z.even t))). }
  apply Rabs_le_inv in HN.
  assert (P54 : bpow radix2 54 = 18014398509481984%R) by reflexivity. rewrite P54 in HN.
  assert (HN1 : 0 <= N <= 2 ^ 52).
  { split.
    - assert (-1 < N); [|lia]. apply lt_IZR. lra.
    - assert (N < 2 ^ 52 + 1); [|lia]. apply lt_IZR. rewrite plus_IZR. change (IZR (2 ^ 52)) with 4503599627370496%R. lra. }
  pose proof (binary_normalize_correct 53 1024 gt53 lt53 mode_NE N (-54) false) as H. cbv zeta in H.
  change (binary_normalize 53 1024 gt53 lt53 mode_NE N (-54) false) with (grid_exp x) in H.
  assert (E : F2R (Float radix2 N (-54)) = (IZR N * bpow radix2 (-54))%R) by reflexivity. rewrite E in H.
  rewrite round_generic in H; [|typeclasses eauto|apply fmt_grid; lia].
  assert (M54 : bpow radix2 (-54) = (/ 18014398509481984)%R) by reflexivity. rewrite M54 in H.
  assert (0 <= IZR N)%R by (apply IZR_le; lia).
  assert (IZR N <= 4503599627370496)%R by (apply IZR_le; lia).
  rewrite Rlt_bool_true in H.
  2:{ apply Rle_lt_trans with 1%R; [apply Rabs_le; lra|]. change 1%R with (bpow radix2 0). apply bpow_lt. lia. }
  destruct H as (HV & HF & _). split; [exact HF|]. rewrite HV. split; [lra|].
  change (bpow radix2 (-53)) with (/ 9007199254740992)%R. fold y. apply Rabs_le. lra.
Qed.
Lemma pow2_exact_powers J : J <= 1000 -> exact_powers pow2 J.
Proof. intros HJ j Hj. apply pow2_ok. lia. Qed.

(*% lam = 2, L = 5, J = 3: an exponential and powers meet the hypotheses, both implementations return filters, *)
(*% and the scaling function is 1 at l = 0 *)
(*@E C63_example *)
Lemma ex_total : exists fexp fpow psi phi, exact_powers fpow 3 /\ j_max 5 2 = Ok 3 /\
  filters_axisym_fp fexp fpow 3 5 0 (fint 2) = Ok (psi, phi) /\ feq (get1 phi 0) (fint 1) = true.
Proof.
  assert (E : okres (fun r => feq (get1 (snd r) 0) (fint 1)) (filters_axisym_fp toy_exp pow2 3 5 0 (fint 2)) = true) by vm_cast_no_check (eq_refl true).
  destruct (filters_axisym_fp toy_exp pow2 3 5 0 (fint 2)) as [[psi phi]|] eqn:EF; [|discriminate].
  exists toy_exp, pow2, psi, phi. split; [apply pow2_exact_powers; lia|]. destruct j_max_5_2 as (EJ & _). split; [exact EJ|]. split; [exact EF|].
  exact E.
Qed.

(*@E C64_example *)
Lemma ex_acc : exists fexp fpow k psi phi, accurate_exp fexp /\ exact_powers fpow 3 /\ j_max 5 2 = Ok 3 /\
  k_lam_fp fexp fpow 3 5 (fint 2) 300 = Ok k /\ filters_axisym_fp fexp fpow 3 5 0 (fint 2) = Ok (psi, phi) /\
  (Rabs (B2R (get2 k 2 3) - generating 2 (3 / 4)) <= 1 / 100)%R /\ (0 < generating 2 (3 / 4) < 1)%R.
Proof.
  destruct j_max_5_2 as (EJ & _). pose proof (pow2_exact_powers 3 ltac:(lia)) as HP.
  destruct (fp2_total grid_exp pow2 3 5) as (k & Ek & _); auto; try lia.
  destruct (fp2_filters_total grid_exp pow2 3 5 0) as ((psi & phi & EF) & _); auto; try lia.
  exists grid_exp, pow2, k, psi, phi. destruct ex_accuracy as (r & _ & _ & _ & HG).
  split; [apply grid_accurate|]. split; [exact HP|]. split; [exact EJ|]. split; [exact Ek|]. split; [exact EF|]. split; [|exact HG].
  pose proof (fp2_gen grid_exp pow2 3 5 k ltac:(lia) grid_accurate HP EJ Ek 2 3 ltac:(lia) ltac:(lia)) as H.
  replace (powerRZ 2 2) with 4%R in H by (simpl; lra). change (bpow radix2 (-35)) with (/ 34359738368)%R in H.
  pose proof quad_err2. lra.
Qed.
