(** * Proofs about filters.py: directional component and spin normalisation *)

From Coq Require Import ZArith Reals List Bool Lia Lra Factorial.
From Coquelicot Require Import Rcomplements Complex.
From Flocq Require Import Core.Raux.
From Verif Require Import Py PyFacts ModelSamples SamplesFacts ModelFilters FiltersFacts.
From Verif Require Spec.
Import ListNotations.
Open Scope Z_scope.

(** ** Binomial coefficients *)

(** Pascal's triangle *)
Fixpoint pascal_tri (n k : nat) : nat :=
  match n, k with
  | _, O => 1%nat
  | O, S _ => O
  | S n', S k' => (pascal_tri n' k' + pascal_tri n' k)%nat
  end.

Lemma tri_out n : forall k, (n < k)%nat -> pascal_tri n k = O.
Proof.
  induction n; destruct k; simpl; intros; try lia; auto.
  rewrite !IHn by lia. reflexivity.
Qed.
Lemma tri_diag n : pascal_tri n n = 1%nat.
Proof. induction n; simpl; auto. rewrite IHn, tri_out; lia. Qed.
Lemma tri_0 n : pascal_tri n 0 = 1%nat.
Proof. destruct n; reflexivity. Qed.

Lemma tri_fact n : forall k, (k <= n)%nat ->
  (pascal_tri n k * (fact k * fact (n - k)) = fact n)%nat.
Proof.
  induction n; intros k Hk.
  - replace k with 0%nat by lia. reflexivity.
  - destruct k.
    + rewrite tri_0. rewrite Nat.sub_0_r. change (fact 0) with 1%nat. lia.
    + cbn [pascal_tri]. simpl (S n - S k)%nat.
      destruct (Nat.eq_dec k n) as [->|Hne].
      * rewrite tri_diag, tri_out, Nat.sub_diag by lia. change (fact 0) with 1%nat. lia.
      * assert (E1 : (pascal_tri n k * (fact k * fact (n - k)) = fact n)%nat) by (apply IHn; lia).
        assert (E2 : (pascal_tri n (S k) * (fact (S k) * fact (n - S k)) = fact n)%nat)
          by (apply IHn; lia).
        assert (F : (fact (n - k) = (n - k) * fact (n - S k))%nat).
        { replace (n - k)%nat with (S (n - S k)) by lia. reflexivity. }
        rewrite Nat.mul_add_distr_r.
        replace (fact (S k) * fact (n - k))%nat with (S k * (fact k * fact (n - k)))%nat at 1
          by (simpl fact; ring).
        replace (pascal_tri n k * (S k * (fact k * fact (n - k))))%nat
          with (S k * (pascal_tri n k * (fact k * fact (n - k))))%nat by ring.
        rewrite E1, F.
        replace (pascal_tri n (S k) * (fact (S k) * ((n - k) * fact (n - S k))))%nat
          with ((n - k) * (pascal_tri n (S k) * (fact (S k) * fact (n - S k))))%nat by ring.
        rewrite E2. change (fact (S n)) with (S n * fact n)%nat. nia.
Qed.
Lemma tri_pos n k : (k <= n)%nat -> (1 <= pascal_tri n k)%nat.
Proof.
  intros H. pose proof (tri_fact n k H). pose proof (lt_O_fact n).
  destruct (pascal_tri n k); lia.
Qed.
Lemma tri_sym n k : (k <= n)%nat -> pascal_tri n (n - k) = pascal_tri n k.
Proof.
  intros H. pose proof (tri_fact n k H) as E1. pose proof (tri_fact n (n - k) ltac:(lia)) as E2.
  replace (n - (n - k))%nat with k in E2 by lia.
  pose proof (lt_O_fact k). pose proof (lt_O_fact (n - k)).
  rewrite <- E1 in E2. rewrite (Nat.mul_comm (fact (n - k))) in E2.
  apply Nat.mul_cancel_r in E2; auto. nia.
Qed.

(** rows of the triangle sum to powers of two *)
Lemma rsum_shift n f : rsum (S n) f = (f 0%nat + rsum n (fun k => f (S k)))%R.
Proof.
  induction n; [simpl; ring|]. change (rsum (S (S n)) f) with (rsum (S n) f + f (S n))%R.
  rewrite IHn. simpl. ring.
Qed.
Lemma rsum_plus n f g : (rsum n (fun k => f k + g k) = rsum n f + rsum n g)%R.
Proof. induction n; simpl; [ring|]. rewrite IHn. ring. Qed.
Lemma tri_sum n : rsum (S n) (fun k => INR (pascal_tri n k)) = (2 ^ n)%R.
Proof.
  induction n; [simpl; ring|].
  rewrite rsum_shift.
  rewrite (rsum_ext (S n) _ (fun k => INR (pascal_tri n k) + INR (pascal_tri n (S k)))%R)
    by (intros; cbn [pascal_tri]; apply plus_INR).
  rewrite rsum_plus, IHn.
  assert (E : rsum (S n) (fun k => INR (pascal_tri n (S k))) = (2 ^ n - 1)%R).
  { rewrite <- IHn. rewrite (rsum_shift n (fun k => INR (pascal_tri n k))).
    change (rsum (S n) (fun k => INR (pascal_tri n (S k))))
      with (rsum n (fun k => INR (pascal_tri n (S k))) + INR (pascal_tri n (S n)))%R.
    rewrite (tri_out n (S n)), tri_0 by lia. simpl. ring. }
  rewrite E, tri_0. simpl. ring.
Qed.

(** a log-gamma function is only ever needed at positive integers *)
Definition is_loggamma (lg : R -> R) : Prop :=
  forall n : nat, lg (INR n + 1)%R = ln (INR (fact n)).

Lemma loggamma_ok : is_loggamma loggamma.
Proof.
  intros n. unfold loggamma. do 3 f_equal. unfold rfloor.
  rewrite INR_IZR_INZ, <- (plus_IZR _ 1), Zfloor_IZR. lia.
Qed.

Lemma fact_posR n : (0 < INR (fact n))%R.
Proof. apply lt_0_INR, lt_O_fact. Qed.

Lemma binomial_exp lg n k : is_loggamma lg -> (k <= n)%nat ->
  exp (lg (INR n + 1) - lg (INR k + 1) - lg (INR n - INR k + 1))%R = INR (pascal_tri n k).
Proof.
  intros Hlg Hk. rewrite <- minus_INR by assumption. rewrite !Hlg.
  unfold Rminus. rewrite !exp_plus, !exp_Ropp, !exp_ln by apply fact_posR.
  rewrite <- (tri_fact n k Hk), !mult_INR.
  pose proof (fact_posR k). pose proof (fact_posR (n - k)). field. lra.
Qed.

Lemma floor_half z e : (Rabs e < 1 / 2)%R -> rfloor (0.5 + (IZR z + e)) = z.
Proof.
  intros H. apply Rabs_def2 in H. unfold rfloor. apply Zfloor_imp. rewrite plus_IZR. lra.
Qed.

Lemma binomial_with_ok lg n k : is_loggamma lg -> (k <= n)%nat ->
  binomial_with lg (INR n) (INR k) = INR (pascal_tri n k).
Proof.
  intros Hlg Hk. unfold binomial_with. rewrite binomial_exp by assumption.
  rewrite (INR_IZR_INZ (pascal_tri n k)). rewrite <- (Rplus_0_r (IZR (Z.of_nat (pascal_tri n k)))) at 1.
  rewrite floor_half; [reflexivity|]. rewrite Rabs_R0. lra.
Qed.

(** ** Directional component *)

Definition gam (N el : Z) : Z :=
  if negb ((N + el) mod 2 =? 0) then Z.min (N - 1) el else Z.min (N - 1) (el - 1).
(** orders carried by the directional component *)
Definition dmask (N m : Z) : bool := (Z.abs m <? N) && negb ((N + m) mod 2 =? 0).
Definition nu (N : Z) : C := if negb (N mod 2 =? 0) then RtoC 1 else Ci.
(** squared modulus of the directional component *)
Definition dsq (N el m : Z) : R :=
  (INR (pascal_tri (Z.to_nat (gam N el)) (Z.to_nat ((gam N el - m) / 2))) / 2 ^ Z.to_nat (gam N el))%R.
Definition sd (N el m : Z) : C :=
  if (1 <=? el) && (Z.abs m <=? el) && dmask N m
  then Cmult (nu N) (RtoC (sqrt (dsq N el m))) else RtoC 0.

Lemma gam_range N el : 1 <= N -> 1 <= el -> 0 <= gam N el <= N - 1 /\ gam N el <= el.
Proof.
  intros. unfold gam. destruct (negb _) eqn:E; [lia|].
  assert ((N + el) mod 2 = 0) by (destruct (Z.eqb_spec ((N + el) mod 2) 0); auto; discriminate).
  lia.
Qed.
Lemma gam_mask N el m : 1 <= N -> 1 <= el -> Z.abs m <= el -> dmask N m = true ->
  Z.abs m <= gam N el /\ exists k, gam N el - m = 2 * k /\ 0 <= k <= gam N el.
Proof.
  intros HN Hel Hm Hd. unfold dmask in Hd. apply andb_true_iff in Hd as [H1 H2].
  apply Z.ltb_lt in H1. apply negb_true_iff, Z.eqb_neq in H2.
  assert (Hg : Z.abs m <= gam N el /\ (gam N el - m) mod 2 = 0).
  { unfold gam. destruct (Z.eqb_spec ((N + el) mod 2) 0) as [E|E]; simpl.
    - assert (Z.abs m <= el - 1).
      { destruct (Z.eq_dec (Z.abs m) el); [|lia]. exfalso.
        destruct (Z.abs_eq_or_opp m) as [Ha|Ha]; rewrite Ha in *; subst el; [lia|].
        apply H2. replace (N + m) with (N + - m + m * 2) by lia. now rewrite Z.mod_add by lia. }
      split; [lia|].
      destruct (Z.min_spec (N - 1) (el - 1)) as [[_ ->]|[_ ->]];
        Z.div_mod_to_equations; lia.
    - split; [lia|].
      destruct (Z.min_spec (N - 1) el) as [[_ ->]|[_ ->]]; Z.div_mod_to_equations; lia. }
  destruct Hg as [Hg Hp]. split; auto.
  apply Z.mod_divide in Hp; [|lia]. destruct Hp as [k Hk]. exists k. lia.
Qed.
Lemma gam_mask_inv N el k : 1 <= N -> 1 <= el -> 0 <= k <= gam N el ->
  dmask N (gam N el - 2 * k) = true.
Proof.
  intros HN Hel Hk. pose proof (gam_range N el HN Hel) as [Hg _].
  unfold dmask. apply andb_true_iff. split; [apply Z.ltb_lt; lia|].
  apply negb_true_iff, Z.eqb_neq.
  replace (N + (gam N el - 2 * k)) with (N + gam N el + (- k) * 2) by lia.
  rewrite Z.mod_add by lia. unfold gam.
  destruct (Z.eqb_spec ((N + el) mod 2) 0) as [E|E]; simpl.
  - destruct (Z.min_spec (N - 1) (el - 1)) as [[_ ->]|[_ ->]]; Z.div_mod_to_equations; lia.
  - destruct (Z.min_spec (N - 1) el) as [[_ ->]|[_ ->]]; Z.div_mod_to_equations; lia.
Qed.

Lemma dsq_nonneg N el m : (0 <= dsq N el m)%R.
Proof. apply Rdiv_le_0_compat; [apply pos_INR | apply pow_lt; lra]. Qed.

Lemma binom_entry lg N el m : is_loggamma lg -> 1 <= N -> 1 <= el -> Z.abs m <= el ->
  dmask N m = true ->
  (binomial_with lg (IZR (gam N el)) (IZR (gam N el - m) / 2) / powerRZ 2 (gam N el))%R = dsq N el m.
Proof.
  intros Hlg HN Hel Hm Hd. destruct (gam_mask N el m HN Hel Hm Hd) as (Hg & k & Hk & Hkr).
  pose proof (gam_range N el HN Hel) as [Hg' _]. unfold dsq.
  replace ((gam N el - m) / 2) with k by (rewrite Hk, Z.mul_comm, Z.div_mul; lia).
  replace (IZR (gam N el - m) / 2)%R with (IZR k) by (rewrite Hk, mult_IZR; field).
  replace (powerRZ 2 (gam N el)) with (2 ^ Z.to_nat (gam N el))%R
    by (rewrite pow_powerRZ, Z2Nat.id by lia; reflexivity).
  replace (IZR (gam N el)) with (INR (Z.to_nat (gam N el)))
    by (rewrite INR_IZR_INZ, Z2Nat.id by lia; reflexivity).
  replace (IZR k) with (INR (Z.to_nat k)) by (rewrite INR_IZR_INZ, Z2Nat.id by lia; reflexivity).
  rewrite binomial_with_ok by (auto; lia). reflexivity.
Qed.

Definition s_arr (L N : Z) : arr2 C := mk2 L (2 * L - 1) (fun el q => sd N el (q - (L - 1))).

Lemma tiling_direction_with_ok lg L N : is_loggamma lg -> 1 <= L -> 1 <= N ->
  tiling_direction_with lg L N = Ok (s_arr L N).
Proof.
  intros Hlg HL HN. unfold tiling_direction_with. rewrite zeros2_ok by lia. cbn [bind].
  fold (nu N).
  rewrite (for_paint2 _ _ _ _ _
    (fun el x y => (x =? el) && ((L - 1 - el <=? y) && (y <? L + el)))
    (fun el q => sd N el (q - (L - 1)))); [|lia|].
  - f_equal. apply mk2_ext. intros el q Hel Hq.
    destruct (existsb _ _) eqn:E; auto. symmetry. unfold sd.
    destruct (Z.leb_spec 1 el); simpl; auto.
    destruct (Z.leb_spec (Z.abs (q - (L - 1))) el); simpl; auto.
    exfalso. apply not_true_iff_false in E. apply E. apply existsb_zrange.
    exists el. split; [lia|]. zb.
  - intros el g Hel. fold (gam N el).
    rewrite (for_fill2_row _ _ _ el _ _ (L - 1) (fun m => sd N el m)); [|lia|lia|lia|lia|].
    + f_equal. apply mk2_ext. intros p q Hp Hq.
      replace (L - 1 + - el) with (L - 1 - el) by lia.
      replace (L - 1 + (el + 1)) with (L + el) by lia.
      destruct (Z.eqb_spec p el); simpl; subst; auto.
    + intros m g' Hm. fold (dmask N m). unfold sd. destruct (dmask N m) eqn:Ed.
      * rewrite binom_entry by (auto; lia). rewrite np_sqrt_ok by apply dsq_nonneg. cbn [bind].
        destruct (Z.leb_spec 1 el); [|lia]. destruct (Z.leb_spec (Z.abs m) el); [|lia]. reflexivity.
      * rewrite andb_false_r. reflexivity.
Qed.

(** ** JAX version *)

Lemma nu_jax N : Cplus (Cmult (RtoC (IZR ((N mod 2 - 1) ^ 2))) Ci) (RtoC (IZR (N mod 2))) = nu N.
Proof.
  unfold nu. pose proof (Z.mod_pos_bound N 2 ltac:(lia)).
  assert (N mod 2 = 0 \/ N mod 2 = 1) as [->| ->] by lia.
  - change ((0 - 1) ^ 2) with 1. cbn [Z.eqb negb].
    apply injective_projections; cbn [fst snd Cplus Cmult RtoC Ci]; ring.
  - change ((1 - 1) ^ 2) with 0. cbn [Z.eqb negb].
    apply injective_projections; cbn [fst snd Cplus Cmult RtoC Ci]; ring.
Qed.
Lemma gam_jax N el : Z.min (N - 1) (el - 1 + (N + el) mod 2) = gam N el.
Proof.
  unfold gam. pose proof (Z.mod_pos_bound (N + el) 2 ltac:(lia)).
  destruct (Z.eqb_spec ((N + el) mod 2) 0) as [E|E]; simpl.
  - rewrite E. f_equal. lia.
  - replace ((N + el) mod 2) with 1 by lia. f_equal. lia.
Qed.
Lemma dmask_jax N m : (m <? N) && (- N <? m) && ((N + m) mod 2 =? 1) = dmask N m.
Proof.
  unfold dmask. pose proof (Z.mod_pos_bound (N + m) 2 ltac:(lia)).
  zb; simpl; zb.
Qed.

Lemma slice_between n a b : 0 <= a <= b -> b <= n ->
  sl_len n (between a b) = b - a /\ sl_start n (between a b) = a /\ sl_stop n (between a b) = b.
Proof.
  intros. unfold sl_len, sl_start, sl_stop, sl_bound, between, range_len. cbn [s_lo s_hi s_st].
  rewrite Z.div_1_r. zb; repeat split; zb.
Qed.
Lemma mem_between n a b p : 0 <= a <= b -> b <= n ->
  sl_mem n (between a b) p = (a <=? p) && (p <? b).
Proof.
  intros. unfold sl_mem. destruct (slice_between n a b) as (_ & -> & ->); auto.
  cbn [s_st between]. rewrite Z.mod_1_r. simpl. now rewrite andb_true_r.
Qed.
Lemma pos_between n a b p : 0 <= a <= b -> b <= n -> sl_pos n (between a b) p = p - a.
Proof.
  intros. unfold sl_pos. destruct (slice_between n a b) as (_ & -> & _); auto.
  cbn [s_st between]. now rewrite Z.div_1_r.
Qed.

Lemma int64_powers_dec L N : {Spec.int64_powers L N} + {~ Spec.int64_powers L N}.
Proof.
  unfold Spec.int64_powers. destruct (Z_lt_dec N 64); [left; lia|]. destruct (Z_lt_dec L 64); [left; lia|].
  destruct (Z.eq_dec L 64) as [->|]; [|right; lia].
  destruct (Z.odd N) eqn:E; [left|right].
  - right; right. split; [reflexivity|]. now apply Z.odd_spec.
  - intros [?|[?|[_ O]]]; try lia. apply Z.odd_spec in O. congruence.
Qed.
Lemma gam_64 L N el : Spec.int64_powers L N -> 1 <= el < L -> gam N el < 63.
Proof.
  intros H Hel. unfold gam. destruct (Z.eqb_spec ((N + el) mod 2) 0) as [E|E]; cbn [negb];
  destruct H as [?|[?|[-> [k ->]]]]; try lia.
  destruct (Z.eq_dec el 63) as [->|]; [|lia]. exfalso. apply E.
  replace (2 * k + 1 + 63) with ((k + 32) * 2) by lia. apply Z_mod_mult.
Qed.
Lemma gam_63 L N : ~ Spec.int64_powers L N -> exists el, 1 <= el < L /\ 63 <= gam N el.
Proof.
  unfold Spec.int64_powers. intros H. assert (64 <= N /\ 64 <= L) as [HN HL] by lia.
  destruct (Z.Even_or_Odd N) as [[k Hk]|[k Hk]].
  - exists 63. split; [lia|]. unfold gam. replace (N + 63) with (1 + (k + 31) * 2) by lia.
    rewrite Z_mod_plus_full. cbn. lia.
  - assert (L <> 64) by (intros ->; apply H; right; right; split; [reflexivity|exists k; lia]).
    exists 64. split; [lia|]. unfold gam. replace (N + 64) with (1 + (k + 32) * 2) by lia.
    rewrite Z_mod_plus_full. cbn. lia.
Qed.
Lemma tiling_direction_jax_with_ok lg L N : is_loggamma lg -> 1 <= L -> 1 <= N -> Spec.int64_powers L N ->
  tiling_direction_jax_with lg L N = Ok (s_arr L N).
Proof.
  intros Hlg HL HN H64. unfold tiling_direction_jax_with. rewrite zeros2_ok by lia. cbn [bind].
  rewrite nu_jax.
  rewrite (for_paint2 _ _ _ _ _
    (fun el x y => (x =? el) && ((L - 1 - el <=? y) && (y <? L + el)))
    (fun el q => sd N el (q - (L - 1)))); [|lia|].
  - f_equal. apply mk2_ext. intros el q Hel Hq.
    destruct (existsb _ _) eqn:E; auto. symmetry. unfold sd.
    destruct (Z.leb_spec 1 el); simpl; auto.
    destruct (Z.leb_spec (Z.abs (q - (L - 1))) el); simpl; auto.
    exfalso. apply not_true_iff_false in E. apply E. apply existsb_zrange.
    exists el. split; [lia|]. zb.
  - intros el g Hel. rewrite gam_jax. rewrite (proj2 (Z.ltb_lt _ _) (gam_64 L N el H64 Hel)). cbn [guard bind].
    unfold upd2. cbn [rows cols mk2].
    destruct (slice_between L el (el + 1)) as (E1 & _); try lia.
    destruct (slice_between (2 * L - 1) (L - 1 - el) (L + el)) as (E2 & _); try lia.
    rewrite E1, E2. unfold bok.
    replace (1 =? el + 1 - el) with true by zb.
    replace (2 * el + 1 =? L + el - (L - 1 - el)) with true by zb. cbn [orb andb].
    f_equal. apply mk2_ext. intros x y Hx Hy. rewrite !mem_between, !pos_between by lia.
    assert (Hx1 : (el <=? x) && (x <? el + 1) = (x =? el)) by zb. rewrite Hx1.
    destruct (Z.eqb_spec x el) as [->|]; cbn [andb]; [|rewrite get2_mk by lia; reflexivity].
    destruct (Z.leb_spec (L - 1 - el) y); cbn [andb]; [|rewrite get2_mk by lia; reflexivity].
    destruct (Z.ltb_spec y (L + el)); [|rewrite get2_mk by lia; reflexivity].
    unfold assign, bi. destruct (Z.eqb_spec (2 * el + 1) 1); [lia|]. 
    change (1 =? 1) with true. cbv iota. rewrite get2_mk by lia. cbv beta.
    replace (- el + (y - (L - 1 - el))) with (y - (L - 1)) by lia.
    rewrite dmask_jax. unfold sd. destruct (Z.leb_spec 1 el); [|lia].
    destruct (Z.leb_spec (Z.abs (y - (L - 1))) el); [|lia]. cbn [andb].
    destruct (dmask N (y - (L - 1))) eqn:Ed; auto.
    rewrite binom_entry by (auto; lia). reflexivity.
Qed.
Lemma tiling_direction_jax_with_overflow lg L N : 1 <= L -> ~ Spec.int64_powers L N ->
  tiling_direction_jax_with lg L N = Err OverflowError.
Proof.
  intros HL H. destruct (gam_63 L N H) as (k & Hk & Hg). unfold tiling_direction_jax_with.
  rewrite zeros2_ok by lia. cbn [bind].
  apply (for_err_only (fun a => rows a = L /\ cols a = 2 * L - 1) _ _ k); [lia|split; reflexivity| |].
  - intros el a Hel [Ea Eb]. rewrite gam_jax. destruct (Z.ltb_spec (gam N el) 63); [|right; reflexivity].
    left. cbn [guard bind]. unfold upd2. rewrite Ea, Eb. cbn [rows cols mk2].
    destruct (slice_between L el (el + 1)) as (E1 & _); try lia.
    destruct (slice_between (2 * L - 1) (L - 1 - el) (L + el)) as (E2 & _); try lia.
    rewrite E1, E2. unfold bok.
    replace (1 =? el + 1 - el) with true by zb.
    replace (2 * el + 1 =? L + el - (L - 1 - el)) with true by zb. cbn [orb andb].
    eexists. split; [reflexivity|]. split; reflexivity.
  - intros a _. rewrite gam_jax. destruct (Z.ltb_spec (gam N k) 63); [lia|reflexivity].
Qed.

(** ** Normalisation and symmetry *)

Lemma Cmod_nu N : Cmod (nu N) = 1%R.
Proof.
  unfold nu. destruct (negb _); unfold Cmod; simpl.
  - replace (1 * (1 * 1) + 0 * (0 * 1))%R with 1%R by ring. apply sqrt_1.
  - replace (0 * (0 * 1) + 1 * (1 * 1))%R with 1%R by ring. apply sqrt_1.
Qed.
Lemma sd_sq N el m : (Cmod (sd N el m) ^ 2 =
  if (1 <=? el) && (Z.abs m <=? el) && dmask N m then dsq N el m else 0)%R.
Proof.
  unfold sd. destruct (_ && _); [|rewrite Cmod_0; ring].
  rewrite Cmod_mult, Cmod_nu, Cmod_R, Rabs_pos_eq by apply sqrt_pos.
  rewrite Rmult_1_l. apply pow2_sqrt, dsq_nonneg.
Qed.

(** sum over every other index *)
Lemma zrsum_even g F : 0 <= g ->
  zrsum (2 * g + 1) (fun i => if Z.even i then F (i / 2) else 0%R) = zrsum (g + 1) F.
Proof.
  intros Hg. pattern g. apply natlike_ind; [| |exact Hg].
  - change (2 * 0 + 1) with 1. change (0 + 1) with 1. rewrite !zrsum_1. reflexivity.
  - intros x Hx IH. unfold Z.succ. replace (2 * (x + 1) + 1) with (2 * x + 1 + 1 + 1) by lia.
    rewrite !(zrsum_S (_ + 1)) by lia. rewrite IH.
    replace (2 * x + 1 + 1) with (2 * (x + 1)) by lia.
    replace (Z.even (2 * x + 1)) with false
      by (symmetry; rewrite Z.add_comm, Z.even_add_mul_2; reflexivity).
    replace (Z.even (2 * (x + 1))) with true by (symmetry; apply Z.even_spec; eexists; reflexivity).
    rewrite Z.mul_comm, Z.div_mul by lia. ring.
Qed.

Lemma sd_norm N el : 1 <= N -> 1 <= el ->
  zrsum (2 * el + 1) (fun i => Cmod (sd N el (i - el)) ^ 2)%R = 1%R.
Proof.
  intros HN Hel. pose proof (gam_range N el HN Hel) as [Hg Hg'].
  set (g := gam N el) in *.
  replace (2 * el + 1) with (el - g + (2 * g + 1 + (el - g))) by lia.
  rewrite (zrsum_split (el - g)) by lia. rewrite (zrsum_split (2 * g + 1)) by lia.
  rewrite (zrsum_zero (el - g) (fun k => Cmod (sd N el (k - el)) ^ 2)%R).
  2:{ intros k Hk. rewrite sd_sq. destruct (_ && _) eqn:E; auto. exfalso.
      apply andb_true_iff in E as [E1 E2]. apply andb_true_iff in E1 as [_ E1].
      apply Z.leb_le in E1. destruct (gam_mask N el (k - el)) as [B _]; auto. fold g in B. lia. }
  rewrite (zrsum_zero (el - g)).
  2:{ intros k Hk. rewrite sd_sq. destruct (_ && _) eqn:E; auto. exfalso.
      apply andb_true_iff in E as [E1 E2]. apply andb_true_iff in E1 as [_ E1].
      apply Z.leb_le in E1.
      destruct (gam_mask N el (el - g + (2 * g + 1 + k) - el)) as [B _]; auto. fold g in B. lia. }
  rewrite Rplus_0_l, Rplus_0_r.
  set (gn := Z.to_nat g).
  rewrite (zrsum_ext _ _ (fun i => if Z.even i
     then (INR (pascal_tri gn (gn - Z.to_nat (i / 2))) / 2 ^ gn)%R else 0%R)).
  2:{ intros i Hi. cbv beta. replace (el - g + i - el) with (i - g) by lia. rewrite sd_sq.
      replace (1 <=? el) with true by zb. replace (Z.abs (i - g) <=? el) with true by zb.
      cbn [andb]. destruct (Z.even i) eqn:Ev.
      - apply Z.even_spec in Ev. destruct Ev as [k ->].
        replace (2 * k - g) with (g - 2 * (g - k)) by lia.
        unfold g at 1. rewrite gam_mask_inv by (auto; fold g; lia). unfold dsq. fold g.
        replace (g - (g - 2 * (g - k))) with ((g - k) * 2) by lia. rewrite Z.div_mul by lia.
        rewrite Z.mul_comm, Z.div_mul by lia. fold gn. do 3 f_equal. unfold gn. lia.
      - destruct (dmask N (i - g)) eqn:Ed; auto. exfalso.
        destruct (gam_mask N el (i - g)) as (_ & k & Hk & _); auto; try lia. fold g in Hk.
        assert (Z.even i = true); [|congruence]. apply Z.even_spec. exists (g - k). lia. }
  rewrite (zrsum_even g (fun k => INR (pascal_tri gn (gn - Z.to_nat k)) / 2 ^ gn)%R) by lia.
  rewrite zrsum_rev.
  rewrite (zrsum_ext _ _ (fun k => / 2 ^ gn * INR (pascal_tri gn (Z.to_nat k)))%R).
  2:{ intros k Hk. unfold Rdiv. rewrite Rmult_comm. do 3 f_equal. unfold gn. lia. }
  rewrite <- zrsum_mul. unfold zrsum. replace (Z.to_nat (g + 1)) with (S gn) by (unfold gn; lia).
  rewrite (rsum_ext _ _ (fun k => INR (pascal_tri gn k))) by (intros; now rewrite Nat2Z.id).
  rewrite tri_sum. apply Rinv_l. apply pow_nonzero. lra.
Qed.

Lemma dmask_opp N m : dmask N (- m) = dmask N m.
Proof.
  unfold dmask. rewrite Z.abs_opp. do 3 f_equal.
  replace (N + m) with (N + - m + m * 2) by lia. now rewrite Z.mod_add by lia.
Qed.
Lemma dsq_opp N el m : 1 <= N -> 1 <= el -> Z.abs m <= el -> dmask N m = true ->
  dsq N el (- m) = dsq N el m.
Proof.
  intros HN Hel Hm Hd. destruct (gam_mask N el m HN Hel Hm Hd) as (Hg & k & Hk & Hkr).
  unfold dsq. do 2 f_equal.
  replace ((gam N el - m) / 2) with k by (rewrite Hk, Z.mul_comm, Z.div_mul; lia).
  replace ((gam N el - - m) / 2) with (gam N el - k)
    by (replace (gam N el - - m) with ((gam N el - k) * 2) by lia; rewrite Z.div_mul; lia).
  rewrite Z2Nat.inj_sub by lia. apply tri_sym. lia.
Qed.
Lemma sd_conj N el m : 1 <= N ->
  sd N el (- m) = Cmult (RtoC (msgn m)) (Cconj (sd N el m)).
Proof.
  intros HN. unfold sd. rewrite Z.abs_opp, dmask_opp.
  destruct (Z.leb_spec 1 el); cbn [andb];
    [|apply injective_projections; simpl; ring].
  destruct (Z.leb_spec (Z.abs m) el); cbn [andb];
    [|apply injective_projections; simpl; ring].
  destruct (dmask N m) eqn:Ed; [|apply injective_projections; simpl; ring].
  rewrite dsq_opp by auto.
  unfold dmask in Ed. apply andb_true_iff in Ed as [_ Ed].
  apply negb_true_iff, Z.eqb_neq in Ed. unfold nu, msgn.
  destruct (Z.eqb_spec (N mod 2) 0) as [E|E]; simpl negb; cbv iota.
  - replace (Z.even m) with false; [apply injective_projections; simpl; ring|].
    pose proof (Zmod_even m). destruct (Z.even m); auto. exfalso. Z.div_mod_to_equations; lia.
  - replace (Z.even m) with true; [apply injective_projections; simpl; ring|].
    pose proof (Zmod_even m). destruct (Z.even m); auto. exfalso. Z.div_mod_to_equations; lia.
Qed.

(** ** Spin normalisation *)

Definition fct (z : Z) : R := INR (fact (Z.to_nat z)).
Lemma fct_pos z : (0 < fct z)%R. Proof. apply fact_posR. Qed.
Lemma fct_succ z : 0 <= z -> fct (z + 1) = (IZR (z + 1) * fct z)%R.
Proof.
  intros. unfold fct. replace (Z.to_nat (z + 1)) with (S (Z.to_nat z)) by lia.
  rewrite fact_simpl, mult_INR, INR_IZR_INZ. do 2 f_equal. lia.
Qed.

Definition snorm (el spin : Z) : R := sqrt (fct (el + spin) / fct (el - spin)).
Lemma ratio_pos el spin : (0 < fct (el + spin) / fct (el - spin))%R.
Proof. apply Rdiv_lt_0_compat; apply fct_pos. Qed.
Lemma snorm_pos el spin : (0 < snorm el spin)%R.
Proof. apply sqrt_lt_R0, ratio_pos. Qed.

Lemma spin_factor el a : 0 <= a <= el ->
  for_ (zrange (- a + 1) (a + 1)) 1%R (fun s factor => Ok (factor * IZR (el + s))%R)
  = Ok (fct (el + a) / fct (el - a))%R.
Proof.
  intros Ha.
  rewrite (for_closed (fun s => fct (el + s - 1) / fct (el - a))%R); [| lia | |].
  - do 3 f_equal. lia.
  - replace (el + (- a + 1) - 1) with (el - a) by lia. pose proof (fct_pos (el - a)). field. lra.
  - intros s Hs. f_equal. replace (el + (s + 1) - 1) with (el + s - 1 + 1) by lia.
    rewrite fct_succ by lia. replace (el + s - 1 + 1) with (el + s) by lia.
    pose proof (fct_pos (el - a)). field. lra.
Qed.

Lemma spin_normalization_ok el spin : Z.abs spin <= el ->
  spin_normalization el spin = Ok (snorm el spin).
Proof.
  intros Hs. unfold spin_normalization. rewrite spin_factor by lia. cbn [bind].
  pose proof (fct_pos (el + Z.abs spin)). pose proof (fct_pos (el - Z.abs spin)).
  assert (0 < fct (el + Z.abs spin) / fct (el - Z.abs spin))%R by now apply Rdiv_lt_0_compat.
  unfold snorm. destruct (Z.ltb_spec 0 spin).
  - rewrite np_sqrt_ok by lra. rewrite Z.abs_eq by lia. reflexivity.
  - rewrite reqb_false by lra. rewrite np_sqrt_ok.
    + rewrite Z.abs_neq in * by lia. do 2 f_equal.
      replace (el - - spin) with (el + spin) in * by lia.
      replace (el + - spin) with (el - spin) in * by lia. field. lra.
    + left. apply Rdiv_lt_0_compat; lra.
Qed.
