(** * Proofs about filters.py: partition of unity and directional filters *)

From Coq Require Import ZArith Reals List Bool Lia Lra.
From Coquelicot Require Import Rcomplements Complex.
From Flocq Require Import Core.Raux.
From Verif Require Import Py PyFacts ModelSamples SamplesFacts ModelFilters FiltersFacts AxisymFacts
  DirectionFacts.
Import ListNotations.
Open Scope Z_scope.

(** ** Partition of unity *)

Lemma zrsum_tele n (a : Z -> R) : 0 <= n -> zrsum n (fun i => a (i + 1)%Z - a i)%R = (a n - a 0%Z)%R.
Proof.
  intros Hn. pattern n. apply natlike_ind; [| |exact Hn].
  - rewrite zrsum_0. ring.
  - intros x Hx IH. unfold Z.succ. rewrite zrsum_S, IH by lia. ring.
Qed.

Section Partition.
Variables (lam : R) (n : Z).
Hypothesis Hlam : (1 < lam)%R.
Hypothesis Hn : 3 <= n.
Notation k := (kv lam n).
Notation d := (kdiff lam n).

Definition psum (J_min J l : Z) : R :=
  (k J_min l + zrsum (J + 1 - J_min) (fun i => Rmax 0 (d (J_min + i)%Z l)))%R.

Lemma psum_tele J_min J l : J_min <= J + 1 -> (IZR l <= powerRZ lam J)%R ->
  (forall j, J_min <= j <= J -> (0 <= d j l)%R) -> psum J_min J l = 1%R.
Proof.
  intros HJ Hl Hp. unfold psum.
  rewrite (zrsum_ext _ _ (fun i => k (J_min + (i + 1))%Z l - k (J_min + i)%Z l)%R).
  2:{ intros i Hi. rewrite Rmax_sq0 by (apply Hp; lia). unfold kdiff.
      now replace (J_min + i + 1) with (J_min + (i + 1)) by lia. }
  rewrite (zrsum_tele _ (fun i => k (J_min + i)%Z l)) by lia.
  replace (J_min + (J + 1 - J_min)) with (J + 1) by lia. rewrite Z.add_0_r.
  rewrite (kv_one lam Hlam n (J + 1)) by (auto; replace (J + 1 - 1) with J by lia; exact Hl). ring.
Qed.

Lemma psum_neg J_min J l j : J_min <= j <= J -> (d j l < 0)%R -> psum J_min J l = k j l.
Proof.
  intros Hj Hd. destruct (kdiff_neg lam n Hlam Hn j l Hd) as [[H1 H2] _].
  unfold psum.
  assert (Z1 : forall i, i < j - 1 -> Rmax 0 (d i l) = 0%R).
  { intros i Hi. rewrite kdiff_far by (auto; (apply Rle_trans with (powerRZ lam (j - 1));
      [apply pw_le; auto; lia | lra])). apply Rmax_left. lra. }
  assert (Z2 : forall i, j <= i -> Rmax 0 (d i l) = 0%R).
  { intros i Hi. destruct (Z.eq_dec i j) as [->|]; [apply Rmax_left; lra|].
    rewrite kdiff_low by (auto; (apply Rle_trans with (powerRZ lam j);
      [lra | apply pw_le; auto; lia])). apply Rmax_left. lra. }
  destruct (Z.eq_dec J_min j) as [->|Hne].
  - rewrite zrsum_zero by (intros i Hi; apply Z2; lia). ring.
  - rewrite (kv_zero lam Hlam n J_min)
      by (apply Rle_trans with (powerRZ lam (j - 1)); [apply pw_le; auto; lia | lra]).
    rewrite (zrsum_single _ _ (j - 1 - J_min)); [|lia|].
    + replace (J_min + (j - 1 - J_min)) with (j - 1) by lia.
      rewrite kdiff_high by (auto; lra). replace (j - 1 + 1) with j by lia.
      rewrite Rmax_right; [ring|]. now apply kv_nonneg.
    + intros i Hi Hi'. destruct (Z_lt_le_dec (J_min + i) (j - 1)); [now apply Z1 | apply Z2; lia].
Qed.

(** the two cases together *)
Lemma psum_cases J_min J l : J_min <= J + 1 -> (IZR l <= powerRZ lam J)%R ->
  ((forall j, J_min <= j <= J -> (k j l <= 1)%R) /\ psum J_min J l = 1%R) \/
  (exists j, J_min <= j <= J /\ (1 < k j l)%R /\ psum J_min J l = k j l).
Proof.
  intros HJ Hl.
  destruct (existsb (fun j => rltb (d j l) 0) (zrange J_min (J + 1))) eqn:E.
  - right. apply existsb_zrange in E. destruct E as (j & Hj & E).
    destruct (rltb_spec (d j l) 0) as [Hd|]; [|discriminate].
    exists j. split; [lia|]. split; [now apply (kdiff_neg lam n Hlam Hn)|].
    apply psum_neg; auto; lia.
  - assert (Hp : forall j, J_min <= j <= J -> (0 <= d j l)%R).
    { intros j Hj. apply Rnot_lt_le. intros Hd. apply not_true_iff_false in E. apply E.
      apply existsb_zrange. exists j. split; [lia|]. now apply rltb_true. }
    left. split; [|now apply psum_tele]. intros j Hj. specialize (Hp j Hj).
    destruct (Rle_lt_dec (IZR l) (powerRZ lam j)) as [H|H].
    + rewrite kdiff_mid in Hp by auto. lra.
    + rewrite kv_zero by (auto; lra). lra.
Qed.
End Partition.

(** the ratio does not exceed one on the upper half of the octave *)
Lemma kv_half lam m j l : (1 < lam)%R -> 2 <= m ->
  ((1 + 1 / lam) / 2 * powerRZ lam j <= IZR l)%R -> (kv lam (2 * m) j l <= 1)%R.
Proof.
  intros Hlam Hm Hl. assert (Hp : (0 < powerRZ lam j)%R) by (apply pw_pos; lra).
  unfold kv. destruct (rltb_spec (IZR l) (powerRZ lam (j - 1))) as [H1|H1]; [lra|].
  destruct (rltb_spec (powerRZ lam j) (IZR l)) as [H2|H2]; [lra|].
  pose proof (norm_pos lam Hlam (2 * m) ltac:(lia)) as Hnp.
  apply (Rmult_le_reg_r (quad lam (1 / lam) (2 * m))); auto.
  replace (quad lam (IZR l / powerRZ lam j) (2 * m) / quad lam (1 / lam) (2 * m)
           * quad lam (1 / lam) (2 * m))%R with (quad lam (IZR l / powerRZ lam j) (2 * m))
    by (field; lra).
  rewrite Rmult_1_l. apply quad_half; auto. split.
  - apply (Rmult_le_reg_r (powerRZ lam j)); auto.
    replace (IZR l / powerRZ lam j * powerRZ lam j)%R with (IZR l) by (field; lra). exact Hl.
  - apply (ratio_in lam Hlam j l). lra.
Qed.

(** ** Directional filters: closed forms *)

Definition el_min (spin spin0 : Z) : Z := Z.max (Z.abs spin) (Z.abs spin0).
Definition wsp (spin0 l : Z) : R := if spin0 =? 0 then 1%R else (snorm l spin0 * msgn spin0)%R.
Definition cphi (l : Z) : R := sqrt (IZR (2 * l + 1) / (4 * PI)).
Definition cpsi (l : Z) : R := sqrt (IZR (2 * l + 1) / (8 * PI * PI)).

Definition phid (lam : R) (L J_min spin spin0 : Z) : arr1 R :=
  mk1 L (fun l => if el_min spin spin0 <=? l
                  then (cphi l * sqrt (kv lam Q J_min l) * wsp spin0 l)%R else 0%R).
Definition psid (F : Z -> Z -> R) (L N J_lo J spin spin0 : Z) : arr3 C :=
  mk3 (J + 1) L (2 * L - 1) (fun j l q =>
    if (J_lo <=? j) && (el_min spin spin0 <=? l)
    then Cmult (RtoC (cpsi l * F j l * wsp spin0 l)) (sd N l (q - (L - 1))) else RtoC 0).
Definition Fvec (lam : R) (j l : Z) : R := sqrt (Rmax 0 (kdiff lam Q j l)).

Lemma pi8 : (8 * PI * PI)%R <> 0%R.
Proof. pose proof PI_RGT_0. apply Rmult_integral_contrapositive_currified; lra. Qed.

Lemma RtoC_neq (x : R) : x <> 0%R -> RtoC x <> RtoC 0.
Proof. intros H E. apply H. apply (f_equal fst) in E. exact E. Qed.

Section Dir.
Variable lam : R.
Hypothesis Hlam : (1 < lam)%R.

(** spin factor as computed inside the loops *)
Lemma spin_factor_ok l spin spin0 : el_min spin spin0 <= l -> spin0 <> 0 ->
  spin_normalization l spin0 = Ok (snorm l spin0).
Proof. intros. apply spin_normalization_ok. unfold el_min in *. lia. Qed.

Lemma filters_directional_ok L N J_min J spin spin0 : 1 <= L -> 1 <= N ->
  j_max L lam = Ok J -> 0 <= J_min < J ->
  filters_directional L N J_min lam spin spin0
  = Ok (psid (tv lam Q) L N J_min J spin spin0, phid lam L J_min spin spin0).
Proof.
  intros HL HN EJ HJ. unfold filters_directional. rewrite EJ. cbn [bind].
  fold (el_min spin spin0). set (e := el_min spin spin0).
  assert (He : 0 <= e) by (unfold e, el_min; lia).
  rewrite zeros1_ok, zeros3_ok by lia. cbn [bind].
  rewrite (filters_axisym_ok lam Hlam L J_min J) by auto. cbn [bind].
  unfold tiling_direction. rewrite tiling_direction_with_ok by (auto; apply loggamma_ok). cbn [bind].
  destruct (Z_le_gt_dec e L) as [HeL|HeL].
  2:{ (* no multipole survives the spin cut-off *)
      rewrite zrange_nil by lia. cbn [for_ bind].
      rewrite (for_paint3 _ _ _ _ _ _ (fun _ _ _ _ => false) (fun _ _ _ => RtoC 0)); [|lia|].
      2:{ intros i g Hi. reflexivity. }
      cbn [bind]. unfold psid, phid. fold e. do 2 f_equal.
      - apply mk3_ext. intros. destruct (existsb _ _); destruct (Z.leb_spec e j);
          try lia; rewrite andb_false_r; reflexivity.
      - apply mk1_ext. intros. destruct (Z.leb_spec e i); [lia|reflexivity]. }
  unfold phi_ax.
  rewrite (for_paint1 L _ e L (fun l x => (x =? l) && negb (reqb (sqrt (kv lam Q J_min l)) 0))
             (fun l => cphi l * sqrt (kv lam Q J_min l) * wsp spin0 l)%R); [|lia|].
  2:{ intros l g Hl. rewrite rd1_mk by lia. cbn [bind].
      destruct (reqb (sqrt (kv lam Q J_min l)) 0) eqn:Ex; cbn [negb].
      - f_equal. apply mk1_ext. intros. now rewrite andb_false_r.
      - rewrite wr1_mk by lia. cbn [bind]. unfold wsp.
        destruct (Z.eqb_spec spin0 0) as [Es|Es]; cbn [negb].
        + f_equal. apply mk1_ext. intros x Hx. destruct (Z.eqb_spec x l); subst; cbn [andb]; auto.
          rewrite Rmult_1_r. reflexivity.
        + rewrite (spin_factor_ok l spin spin0) by (auto; fold e; lia). cbn [bind].
          rewrite rd1_mk by lia. cbn [bind]. rewrite Z.eqb_refl, wr1_mk by lia.
          f_equal. apply mk1_ext. intros x Hx. destruct (Z.eqb_spec x l); subst; cbn [andb]; auto. }
  cbn [bind].
  rewrite (for_paint3 (J + 1) L (2 * L - 1) _ J_min (J + 1)
    (fun j x y z => existsb (fun el => (x =? j) && negb (reqb (tv lam Q j el) 0) &&
        existsb (fun m => (y =? el) && (z =? L - 1 + m) &&
                          (if Ceq_dec (sd N el m) (RtoC 0) then false else true))
                (zrange (- el) (el + 1))) (zrange e L))
    (fun j l q => Cmult (RtoC (cpsi l * tv lam Q j l * wsp spin0 l)) (sd N l (q - (L - 1)))));
    [|lia|].
  - cbn [bind]. unfold psid, phid. fold e. do 2 f_equal.
    + apply mk3_ext. intros j l q Hj Hl Hq.
      destruct (existsb _ _) eqn:E.
      * apply existsb_zrange in E. destruct E as (j' & Hj' & E).
        apply existsb_zrange in E. destruct E as (el & Hel & E).
        apply andb_true_iff in E as [E E2]. apply andb_true_iff in E as [E _].
        apply Z.eqb_eq in E. subst j'.
        apply existsb_zrange in E2. destruct E2 as (m & Hm & E2).
        apply andb_true_iff in E2 as [E2 _]. apply andb_true_iff in E2 as [E2 _].
        apply Z.eqb_eq in E2. subst el.
        replace (J_min <=? j) with true by zb. replace (e <=? l) with true by zb. reflexivity.
      * destruct (Z.leb_spec J_min j); cbn [andb]; [|reflexivity].
        destruct (Z.leb_spec e l); [|reflexivity].
        assert (tv lam Q j l = 0%R \/ sd N l (q - (L - 1)) = RtoC 0) as [Z0|Z0].
        { destruct (Req_dec (tv lam Q j l) 0) as [|Ht]; [now left|right].
          destruct (Ceq_dec (sd N l (q - (L - 1))) (RtoC 0)) as [|Hs]; auto. exfalso.
          apply not_true_iff_false in E. apply E.
          apply existsb_zrange. exists j. split; [lia|].
          apply existsb_zrange. exists l. split; [lia|].
          rewrite Z.eqb_refl, reqb_false by assumption. cbn [negb andb].
          assert (Z.abs (q - (L - 1)) <= l).
          { destruct (Z_le_gt_dec (Z.abs (q - (L - 1))) l); auto. exfalso. apply Hs.
            unfold sd. destruct (Z.leb_spec (Z.abs (q - (L - 1))) l); [lia|].
            now rewrite andb_false_r. }
          apply existsb_zrange. exists (q - (L - 1)). split; [lia|].
          rewrite Z.eqb_refl. replace (q =? L - 1 + (q - (L - 1))) with true by zb. cbn [andb].
          destruct (Ceq_dec _ _); [contradiction|reflexivity]. }
        -- rewrite Z0. apply injective_projections; simpl; unfold zero, Zeroed_C; simpl; ring.
        -- rewrite Z0. apply injective_projections; simpl; unfold zero, Zeroed_C; simpl; ring.
    + apply mk1_ext. intros l Hl. destruct (existsb _ _) eqn:E.
      * apply existsb_zrange in E. destruct E as (x & Hx & E).
        apply andb_true_iff in E as [E _]. apply Z.eqb_eq in E. subst x.
        now replace (e <=? l) with true by zb.
      * destruct (Z.leb_spec e l); [|reflexivity].
        destruct (Req_dec (sqrt (kv lam Q J_min l)) 0) as [->|Hx].
        -- unfold zero, Zeroed_R. ring.
        -- exfalso. apply not_true_iff_false in E. apply E. apply existsb_zrange. exists l.
           split; [lia|]. now rewrite Z.eqb_refl, reqb_false.
  - intros j g Hj.
    apply for_paint3; [lia|]. intros el g' Hel.
    unfold psi_loop. rewrite rd2_mk by lia. cbn [bind]. replace (J_min <=? j) with true by zb.
    destruct (reqb (tv lam Q j el) 0) eqn:Ek; cbn [negb].
    { f_equal. apply mk3_ext. intros. now rewrite andb_false_r. }
    rewrite (for_paint3 (J + 1) L (2 * L - 1) _ (- el) (el + 1)
      (fun m x y z => (x =? j) && ((y =? el) && (z =? L - 1 + m) &&
                          (if Ceq_dec (sd N el m) (RtoC 0) then false else true)))
      (fun j l q => Cmult (RtoC (cpsi l * tv lam Q j l * wsp spin0 l)) (sd N l (q - (L - 1)))));
      [|lia|].
    + f_equal. apply mk3_ext. intros x y z Hx Hy Hz.
      destruct (Z.eqb_spec x j) as [->|]; cbn [andb]; [reflexivity|].
      destruct (existsb _ _) eqn:E; auto. apply existsb_zrange in E.
      destruct E as (m & _ & E). discriminate.
    + intros m g'' Hm. unfold s_arr. rewrite rd2_mk by lia. cbn [bind].
      replace (L - 1 + m - (L - 1)) with m by lia.
      destruct (Ceq_dec (sd N el m) (RtoC 0)) as [Hs|Hs].
      { f_equal. apply mk3_ext. intros. now rewrite !andb_false_r. }
      rewrite wr3_mk by lia. cbn [bind]. fold (cpsi el). unfold wsp.
      destruct (Z.eqb_spec spin0 0) as [Es|Es]; cbn [negb].
      * f_equal. apply mk3_ext. intros x y z Hx Hy Hz. rewrite andb_true_r, andb_assoc.
        destruct (Z.eqb_spec x j); subst; cbn [andb]; auto.
        destruct (Z.eqb_spec y el); subst; cbn [andb]; auto.
        destruct (Z.eqb_spec z (L - 1 + m)); subst; cbn [andb]; auto.
        replace (L - 1 + m - (L - 1)) with m by lia. rewrite Rmult_1_r. reflexivity.
      * rewrite (spin_factor_ok el spin spin0) by (auto; fold e; lia). cbn [bind].
        rewrite rd3_mk by lia. cbn [bind]. rewrite !Z.eqb_refl. cbn [andb]. rewrite wr3_mk by lia.
        f_equal. apply mk3_ext. intros x y z Hx Hy Hz. rewrite andb_true_r, andb_assoc.
        destruct (Z.eqb_spec x j); subst; cbn [andb]; auto.
        destruct (Z.eqb_spec y el); subst; cbn [andb]; auto.
        destruct (Z.eqb_spec z (L - 1 + m)); subst; cbn [andb]; auto.
        replace (L - 1 + m - (L - 1)) with m by lia.
        apply injective_projections; simpl; ring.
Qed.

(** ** vectorised and JAX versions *)

Lemma sl_upto n b : 0 <= b -> sl_start n (upto b) = 0 /\ sl_stop n (upto b) = Z.min b n.
Proof. intros. unfold sl_start, sl_stop, sl_bound, upto. cbn [s_lo s_hi]. split; zb. Qed.
Lemma mem_upto n b p : 0 <= b -> 0 <= p < n -> sl_mem n (upto b) p = (p <? b).
Proof.
  intros. unfold sl_mem. destruct (sl_upto n b) as [-> ->]; auto. cbn [s_st upto].
  rewrite Z.mod_1_r. cbn [Z.eqb]. zb.
Qed.
Lemma mem_full n p : 0 <= p < n -> sl_mem n full p = true.
Proof.
  intros. unfold sl_mem, sl_start, sl_stop, sl_bound, full. cbn [s_lo s_hi s_st].
  rewrite Z.mod_1_r. zb.
Qed.
Lemma bdim_refl a : bdim a a = Ok a.
Proof. unfold bdim. now rewrite Z.eqb_refl. Qed.
Lemma bi_in n i : 0 <= i < n -> bi n i = i.
Proof. intros. unfold bi. destruct (Z.eqb_spec n 1); lia. Qed.

Lemma cpsi_vec l : (sqrt (IZR (2 * l + 1) / 8) / PI)%R = cpsi l.
Proof.
  pose proof PI_RGT_0. unfold cpsi. unfold Rdiv at 3. rewrite Rinv_mult.
  rewrite (Rinv_mult 8 PI).
  replace (IZR (2 * l + 1) * (/ 8 * / PI * / PI))%R
    with (IZR (2 * l + 1) / 8 * (/ PI * / PI))%R by (unfold Rdiv; ring).
  rewrite Rmult_comm, sqrt_mult_alt by apply Rle_0_sqr.
  rewrite sqrt_square by (left; now apply Rinv_0_lt_compat). unfold Rdiv. ring.
Qed.

(** both array versions with spin0 = 0, from the axisymmetric filters and the
    directional component *)
Lemma array_dir_ok L N J_min J spin kappa0 kappa : 1 <= L -> 1 <= N -> 0 <= J ->
  kappa0 = phi_ax lam L J_min -> kappa = psi_vec lam L J ->
  (kappa0 <- mul1 kappa0 (scal_weights L) ;;
   kappa <- mul21 kappa (wav_weights L) ;;
   kappa <- einsum_ij_jk_ijk kappa (s_arr L N) ;;
   let kappa0 := fill1 kappa0 (upto (Z.max (Z.abs spin) (Z.abs 0))) 0%R in
   let kappa := fill3 kappa full (upto (Z.max (Z.abs spin) (Z.abs 0))) full (RtoC 0) in
   Ok (kappa, kappa0))
  = Ok (psid (Fvec lam) L N 0 J spin 0, phid lam L J_min spin 0).
Proof.
  intros HL HN HJ -> ->. unfold mul1, mul21, einsum_ij_jk_ijk, phi_ax, psi_vec, scal_weights,
    wav_weights, s_arr, fill1, fill3. cbn [len1 rows cols dim0 dim1 dim2 mk1 mk2 mk3].
  rewrite !bdim_refl. cbn [bind]. cbn [len1 rows cols dim0 dim1 dim2 mk1 mk2 mk3].
  rewrite bdim_refl. cbn [bind]. cbn [len1 rows cols dim0 dim1 dim2 mk1 mk2 mk3].
  unfold psid, phid, wsp. fold (el_min spin 0).
  assert (He : 0 <= el_min spin 0) by (unfold el_min; lia).
  do 2 f_equal.
  - apply mk3_ext. intros j l q Hj Hl Hq.
    rewrite !mem_full, mem_upto, get3_mk, !bi_in by lia. rewrite !get2_mk, !bi_in, !get2_mk, !get1_mk by lia.
    cbn [andb]. rewrite andb_true_r.
    replace (0 <=? j) with true by zb. cbn [andb].
    destruct (Z.ltb_spec l (el_min spin 0)), (Z.leb_spec (el_min spin 0) l); try lia; [reflexivity|].
    rewrite cpsi_vec, Z.eqb_refl. unfold Fvec. f_equal. f_equal. ring.
  - apply mk1_ext. intros l Hl. rewrite mem_upto, get1_mk, !bi_in, !get1_mk by lia.
    destruct (Z.ltb_spec l (el_min spin 0)), (Z.leb_spec (el_min spin 0) l); try lia; [reflexivity|].
    rewrite Z.eqb_refl. unfold cphi. ring.
Qed.

Lemma filters_directional_vec_ok L N J_min J spin : 1 <= L -> 1 <= N ->
  j_max L lam = Ok J -> 0 <= J_min < J ->
  filters_directional_vectorised L N J_min lam spin 0
  = Ok (psid (Fvec lam) L N 0 J spin 0, phid lam L J_min spin 0).
Proof.
  intros HL HN EJ HJ. unfold filters_directional_vectorised.
  change (negb (0 =? 0)) with false. cbv iota. cbn [bind].
  rewrite (filters_axisym_vec_ok lam Hlam L J_min J) by auto. cbn [bind].
  unfold tiling_direction. rewrite tiling_direction_with_ok by (auto; apply loggamma_ok). cbn [bind].
  rewrite <- (array_dir_ok L N J_min J spin _ _ HL HN ltac:(lia) eq_refl eq_refl).
  reflexivity.
Qed.
Lemma filters_directional_jax_ok L N J_min J spin : 1 <= L -> 1 <= N -> Spec.int64_powers L N ->
  j_max L lam = Ok J -> 0 <= J_min < J ->
  filters_directional_jax L N J_min lam spin 0
  = Ok (psid (Fvec lam) L N 0 J spin 0, phid lam L J_min spin 0).
Proof.
  intros HL HN H64 EJ HJ. unfold filters_directional_jax.
  change (negb (0 =? 0)) with false. cbv iota. cbn [bind].
  rewrite (filters_axisym_jax_ok lam Hlam L J_min J) by auto. cbn [bind].
  unfold tiling_direction_jax. rewrite tiling_direction_jax_with_ok by (auto; apply loggamma_ok).
  cbn [bind].
  rewrite <- (array_dir_ok L N J_min J spin _ _ HL HN ltac:(lia) eq_refl eq_refl).
  reflexivity.
Qed.

Lemma filters_directional_jax_overflow L N J_min J spin : 1 <= L -> ~ Spec.int64_powers L N ->
  j_max L lam = Ok J -> 0 <= J_min < J ->
  filters_directional_jax L N J_min lam spin 0 = Err OverflowError.
Proof.
  intros HL H64 EJ HJ. unfold filters_directional_jax.
  change (negb (0 =? 0)) with false. cbv iota. cbn [bind].
  rewrite (filters_axisym_jax_ok lam Hlam L J_min J) by auto. cbn [bind].
  unfold tiling_direction_jax. now rewrite tiling_direction_jax_with_overflow.
Qed.

(** outside the admissible range of J_min, all three fail *)
Lemma filters_directional_check L N J_min J spin spin0 : 1 <= L -> 1 <= N ->
  j_max L lam = Ok J -> J_min < 0 \/ J <= J_min ->
  filters_directional L N J_min lam spin spin0 = Err ValueError /\
  filters_directional_vectorised L N J_min lam spin 0 = Err ValueError /\
  filters_directional_jax L N J_min lam spin 0 = Err ValueError.
Proof.
  intros HL HN EJ HJ. destruct (kcheck lam L J_min J HL EJ HJ) as (K1 & K2 & K3).
  pose proof (j_max_nonneg L lam J HL Hlam EJ).
  unfold filters_directional, filters_directional_vectorised, filters_directional_jax.
  rewrite EJ. cbn [bind]. rewrite zeros1_ok, zeros3_ok by lia. cbn [bind].
  rewrite K1, K2, K3. auto.
Qed.

(** a nonzero spin0 always makes the array versions fail *)
Lemma reshape_fail e spin : spin <> 0 ->
  reshape_1 e (arange (- Z.abs spin + 1) (Z.abs spin + 1)) (2 * Z.abs spin + 1) = Err e.
Proof.
  intros H. unfold reshape_1, arange. rewrite zrange_length.
  destruct (Z.eqb_spec (Z.of_nat (Z.to_nat (Z.abs spin + 1 - (- Z.abs spin + 1))))
              (2 * Z.abs spin + 1)); [lia|reflexivity].
Qed.
Lemma spin_fail_vec L N J_min spin spin0 : spin0 <> 0 ->
  filters_directional_vectorised L N J_min lam spin spin0 = Err ValueError.
Proof.
  intros H. unfold filters_directional_vectorised, spin_normalization_vectorised.
  destruct (Z.eqb_spec spin0 0); [lia|]. cbn [negb]. now rewrite reshape_fail.
Qed.
Lemma spin_fail_jax L N J_min spin spin0 : spin0 <> 0 ->
  filters_directional_jax L N J_min lam spin spin0 = Err TypeError.
Proof.
  intros H. unfold filters_directional_jax, spin_normalization_jax.
  destruct (Z.eqb_spec spin0 0); [lia|]. cbn [negb]. now rewrite reshape_fail.
Qed.
End Dir.
