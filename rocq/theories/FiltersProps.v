(*T Properties of filters.py (C08 - C21, C38 - C40, C47 - C49) *)
(*! From Coq Require Import ZArith Reals List Bool. *)
(*! From Coquelicot Require Import Complex. *)
(*! From Verif Require Import Py ModelSamples ModelFilters Spec. *)
(** * Proofs about filters.py in the form in which PropertiesFilters.v states them *)

From Coq Require Import ZArith Reals List Bool Lia Lra.
From Coquelicot Require Import Rcomplements Complex.
From Flocq Require Import Core.Raux.
From Verif Require Import Py PyFacts ModelSamples SamplesFacts ModelFilters Spec FiltersFacts
  AxisymFacts DirectionFacts DirFilterFacts SamplesProps.
Import ListNotations.
Open Scope Z_scope.

(** ** Sums *)

Lemma fold_seq (f : nat -> R) n k :
  fold_right Rplus 0%R (map f (seq k n)) = rsum n (fun i => f (k + i)%nat).
Proof.
  revert k. induction n; intros k; [reflexivity|].
  cbn [seq map fold_right]. rewrite IHn, rsum_shift. f_equal.
  - f_equal. lia.
  - apply rsum_ext. intros. f_equal. lia.
Qed.
Lemma sumZ_zrsum lo hi f : sumZ lo hi f = zrsum (hi - lo) (fun i => f (lo + i)).
Proof. unfold sumZ. rewrite fold_seq. reflexivity. Qed.
Lemma sumZ_ext lo hi f g : (forall i, lo <= i < hi -> f i = g i) -> sumZ lo hi f = sumZ lo hi g.
Proof. intros H. rewrite !sumZ_zrsum. apply zrsum_ext. intros. apply H. lia. Qed.
Lemma sumZ_zero lo hi f : (forall i, lo <= i < hi -> f i = 0%R) -> sumZ lo hi f = 0%R.
Proof. intros H. rewrite sumZ_zrsum. apply zrsum_zero. intros. apply H. lia. Qed.
Lemma sumZ_mul lo hi f c : sumZ lo hi (fun i => c * f i)%R = (c * sumZ lo hi f)%R.
Proof. rewrite !sumZ_zrsum. symmetry. apply zrsum_mul. Qed.
Lemma sumZ_split lo mid hi f : lo <= mid <= hi ->
  sumZ lo hi f = (sumZ lo mid f + sumZ mid hi f)%R.
Proof.
  intros H. rewrite !sumZ_zrsum. replace (hi - lo) with ((mid - lo) + (hi - mid)) by lia.
  rewrite zrsum_split by lia. f_equal. apply zrsum_ext. intros. f_equal. lia.
Qed.

(** ** Inversion of the constructors *)

Lemma range_dec J_min J : (0 <= J_min < J) \/ (J_min < 0 \/ J <= J_min).
Proof. lia. Qed.

Section Inv.
Variables (lam : R) (L J_min : Z).
Hypothesis Hlam : (1 < lam)%R.
Hypothesis HL : 1 <= L.

Lemma inv_axi psi phi : filters_axisym L J_min lam = Ok (psi, phi) ->
  exists J, j_max L lam = Ok J /\ 0 <= J_min < J /\
    psi = psi_loop lam L J_min J /\ phi = phi_ax lam L J_min.
Proof.
  intros E. destruct (j_max_spec L lam HL Hlam) as (J & EJ & _). exists J.
  destruct (range_dec J_min J) as [H|H].
  - rewrite (filters_axisym_ok lam Hlam L J_min J HL EJ H) in E. injection E as <- <-. auto.
  - destruct (kcheck lam L J_min J HL EJ H) as (K & _). congruence.
Qed.
Lemma inv_vec psi phi : filters_axisym_vectorised L J_min lam = Ok (psi, phi) ->
  exists J, j_max L lam = Ok J /\ 0 <= J_min < J /\
    psi = psi_vec lam L J /\ phi = phi_ax lam L J_min.
Proof.
  intros E. destruct (j_max_spec L lam HL Hlam) as (J & EJ & _). exists J.
  destruct (range_dec J_min J) as [H|H].
  - rewrite (filters_axisym_vec_ok lam Hlam L J_min J HL EJ H) in E. injection E as <- <-. auto.
  - destruct (kcheck lam L J_min J HL EJ H) as (_ & K & _). congruence.
Qed.
Lemma inv_dir N spin spin0 psi phi : 1 <= N ->
  filters_directional L N J_min lam spin spin0 = Ok (psi, phi) ->
  exists J, j_max L lam = Ok J /\ 0 <= J_min < J /\
    psi = psid (tv lam Q) L N J_min J spin spin0 /\ phi = phid lam L J_min spin spin0.
Proof.
  intros HN E. destruct (j_max_spec L lam HL Hlam) as (J & EJ & _). exists J.
  destruct (range_dec J_min J) as [H|H].
  - rewrite (filters_directional_ok lam Hlam L N J_min J spin spin0 HL HN EJ H) in E.
    apply Ok_inj in E. injection E as <- <-. auto.
  - destruct (filters_directional_check lam Hlam L N J_min J spin spin0 HL HN EJ H) as (K & _).
    congruence.
Qed.
Lemma inv_dvec N spin spin0 psi phi : 1 <= N ->
  filters_directional_vectorised L N J_min lam spin spin0 = Ok (psi, phi) ->
  exists J, j_max L lam = Ok J /\ 0 <= J_min < J /\ spin0 = 0 /\
    psi = psid (Fvec lam) L N 0 J spin 0 /\ phi = phid lam L J_min spin 0.
Proof.
  intros HN E. destruct (j_max_spec L lam HL Hlam) as (J & EJ & _). exists J.
  destruct (Z.eq_dec spin0 0) as [->|Hs]; [|rewrite spin_fail_vec in E by auto; discriminate].
  destruct (range_dec J_min J) as [H|H].
  - rewrite (filters_directional_vec_ok lam Hlam L N J_min J spin HL HN EJ H) in E.
    apply Ok_inj in E. injection E as <- <-. auto.
  - destruct (filters_directional_check lam Hlam L N J_min J spin 0 HL HN EJ H) as (_ & K & _).
    congruence.
Qed.
Lemma jax_is_vec N spin spin0 : 1 <= N -> int64_powers L N -> spin0 = 0 ->
  filters_directional_jax L N J_min lam spin spin0
  = filters_directional_vectorised L N J_min lam spin spin0.
Proof.
  intros HN H64 ->. destruct (j_max_spec L lam HL Hlam) as (J & EJ & _).
  destruct (range_dec J_min J) as [H|H].
  - rewrite (filters_directional_vec_ok lam Hlam L N J_min J spin HL HN EJ H).
    now rewrite (filters_directional_jax_ok lam Hlam L N J_min J spin HL HN H64 EJ H).
  - destruct (filters_directional_check lam Hlam L N J_min J spin 0 HL HN EJ H) as (_ & -> & ->).
    reflexivity.
Qed.
Lemma jax_to_vec N spin spin0 p : 1 <= N -> filters_directional_jax L N J_min lam spin spin0 = Ok p ->
  filters_directional_vectorised L N J_min lam spin spin0 = Ok p.
Proof.
  intros HN E. destruct (Z.eq_dec spin0 0) as [->|Hs]; [|rewrite spin_fail_jax in E by assumption; discriminate].
  destruct (int64_powers_dec L N) as [H64|H64]; [rewrite <- jax_is_vec by auto; exact E|].
  destruct (j_max_spec L lam HL Hlam) as (J & EJ & _). destruct (range_dec J_min J) as [H|H].
  - rewrite (filters_directional_jax_overflow lam Hlam L N J_min J spin HL H64 EJ H) in E. discriminate.
  - destruct (filters_directional_check lam Hlam L N J_min J spin 0 HL HN EJ H) as (_ & _ & K). congruence.
Qed.
Lemma inv_k k : k_lam L lam 300 = Ok k ->
  exists J, j_max L lam = Ok J /\ 0 <= J /\ k = mk2 (J + 2) L (kv lam Q).
Proof.
  intros E. destruct (j_max_spec L lam HL Hlam) as (J & EJ & _). exists J.
  pose proof (j_max_nonneg L lam J HL Hlam EJ).
  rewrite (k_lam_ok lam Hlam L 300 J) in E by (auto; lia). apply Ok_inj in E.
  repeat split; auto.
Qed.
End Inv.

Lemma J_covers L lam J l : 1 <= L -> (1 < lam)%R -> j_max L lam = Ok J -> l <= L ->
  (IZR l <= powerRZ lam J)%R.
Proof.
  intros HL Hlam EJ Hl. apply (j_max_iff L lam J HL Hlam) in EJ.
  assert (IZR l <= IZR L)%R by now apply IZR_le. lra.
Qed.

Lemma same_J L lam J J' : j_max L lam = Ok J -> j_max L lam = Ok J' -> J = J'.
Proof. intros. apply Ok_inj. congruence. Qed.

(*% ** C08: filter constructors reject exactly the invalid scale ranges *)

(*@ C08_invalid_scale_range_rejected *)
Lemma invalid_range : forall L N lam J J_min spin spin0, 1 <= L -> 1 <= N -> (1 < lam)%R ->
  j_max L lam = Ok J -> J_min < 0 \/ J <= J_min ->
  filters_axisym L J_min lam = Err ValueError /\
  filters_axisym_vectorised L J_min lam = Err ValueError /\
  filters_axisym_jax L J_min lam = Err ValueError /\
  filters_directional L N J_min lam spin spin0 = Err ValueError /\
  filters_directional_vectorised L N J_min lam spin 0 = Err ValueError /\
  filters_directional_jax L N J_min lam spin 0 = Err ValueError.
Proof.
  intros L N lam J J_min spin spin0 HL HN Hlam EJ H.
  destruct (kcheck lam L J_min J HL EJ H) as (? & ? & ?).
  destruct (filters_directional_check lam Hlam L N J_min J spin spin0 HL HN EJ H) as (? & ? & ?).
  tauto.
Qed.

(*@ C08_valid_scale_range_accepted *)
Lemma valid_range : forall L N lam J J_min spin spin0, 1 <= L -> 1 <= N -> (1 < lam)%R ->
  j_max L lam = Ok J -> 0 <= J_min < J ->
  (exists psi phi, filters_axisym L J_min lam = Ok (psi, phi) /\
     shape2 psi = [J + 1; L] /\ shape1 phi = [L]) /\
  (exists psi phi, filters_axisym_vectorised L J_min lam = Ok (psi, phi) /\
     shape2 psi = [J + 1; L] /\ shape1 phi = [L]) /\
  (exists psi phi, filters_axisym_jax L J_min lam = Ok (psi, phi) /\
     shape2 psi = [J + 1; L] /\ shape1 phi = [L]) /\
  (exists psi phi, filters_directional L N J_min lam spin spin0 = Ok (psi, phi) /\
     shape3 psi = [J + 1; L; 2 * L - 1] /\ shape1 phi = [L]) /\
  (exists psi phi, filters_directional_vectorised L N J_min lam spin 0 = Ok (psi, phi) /\
     shape3 psi = [J + 1; L; 2 * L - 1] /\ shape1 phi = [L]) /\
  (int64_powers L N -> exists psi phi, filters_directional_jax L N J_min lam spin 0 = Ok (psi, phi) /\
     shape3 psi = [J + 1; L; 2 * L - 1] /\ shape1 phi = [L]).
Proof.
  intros L N lam J J_min spin spin0 HL HN Hlam EJ H.
  split; [|split; [|split; [|split; [|split]]]]; [| | | | |intros H64].
  - do 2 eexists. rewrite (filters_axisym_ok lam Hlam L J_min J HL EJ H). repeat split.
  - do 2 eexists. rewrite (filters_axisym_vec_ok lam Hlam L J_min J HL EJ H). repeat split.
  - do 2 eexists. rewrite (filters_axisym_jax_ok lam Hlam L J_min J HL EJ H). repeat split.
  - do 2 eexists. rewrite (filters_directional_ok lam Hlam L N J_min J spin spin0 HL HN EJ H).
    repeat split.
  - do 2 eexists. rewrite (filters_directional_vec_ok lam Hlam L N J_min J spin HL HN EJ H).
    repeat split.
  - do 2 eexists. rewrite (filters_directional_jax_ok lam Hlam L N J_min J spin HL HN H64 EJ H).
    repeat split.
Qed.

(*% L = 5, lam = 2 has J = 3: J_min = 1 is accepted, 3 and -1 are not *)
(*@E C08_example *)
Lemma ex_range : j_max 5 2 = Ok 3 /\ (exists p, filters_axisym 5 1 2 = Ok p) /\
  filters_axisym 5 3 2 = Err ValueError /\ filters_directional 5 2 (-1) 2 0 1 = Err ValueError.
Proof.
  destruct j_max_5_2 as (EJ & _). split; [exact EJ|]. repeat split.
  - destruct (valid_range 5 1 2 3 1 0 0) as ((p & q & E & _) & _); auto; try lia; try lra. eauto.
  - apply (invalid_range 5 1 2 3 3 0 0); auto; try lia; lra.
  - apply (invalid_range 5 2 2 3 (-1) 0 1); auto; try lia; lra.
Qed.

(*% ** C09: quadrature weights are positive and well defined *)

(*@ C09_quadrature_positive *)
Lemma quadrature_positive : forall lam n a, (1 < lam)%R -> 3 <= n -> (1 / lam <= a <= 1)%R ->
  exists v, part_scaling_fn a 1 n lam = Ok v /\ (0 <= v)%R /\
    ((a < 1)%R -> (0 < v)%R) /\ (a = 1%R -> v = 0%R).
Proof.
  intros lam n a Hlam Hn Ha. exists (quad lam a n). split; [|split; [|split]].
  - apply part_scaling_ok; auto; try lra. lia.
  - apply quadab_nonneg; auto; try lra. lia.
  - intros. apply quad_pos; auto. lra.
  - intros ->. apply quad_1.
Qed.

(*@ C09_generating_function_values *)
Lemma generating_values : forall L lam n, 1 <= L -> (1 < lam)%R -> 3 <= n ->
  exists J k, j_max L lam = Ok J /\ k_lam L lam n = Ok k /\ shape2 k = [J + 2; L] /\
    forall j l, 0 <= j < J + 2 -> 0 <= l < L ->
      ((IZR l <= powerRZ lam (j - 1))%R -> get2 k j l = 1%R) /\
      ((powerRZ lam j <= IZR l)%R -> get2 k j l = 0%R) /\
      ((IZR l < powerRZ lam j)%R -> (0 < get2 k j l)%R).
Proof.
  intros L lam n HL Hlam Hn. destruct (j_max_spec L lam HL Hlam) as (J & EJ & _).
  exists J. eexists. split; [exact EJ|]. split; [exact (k_lam_ok lam Hlam L n J HL Hn EJ)|]. split; [reflexivity|].
  intros j l Hj Hl. rewrite get2_mk by lia. repeat split.
  - now apply kv_one.
  - now apply kv_zero.
  - now apply kv_pos.
Qed.

(*@E C09_example *)
Lemma ex_quad : (exists v, part_scaling_fn (1 / 2) 1 300 2 = Ok v /\ (0 < v)%R) /\
  part_scaling_fn 1 1 300 2 = Ok 0%R.
Proof.
  split.
  - destruct (quadrature_positive 2 300 (1/2)) as (v & E & _ & P & _); try lra; try lia.
    exists v. split; auto. apply P. lra.
  - destruct (quadrature_positive 2 300 1) as (v & E & _ & _ & P); try lra; try lia.
    now rewrite E, P.
Qed.

(*% ** C48: the generating function is the documented quadrature *)

Lemma gint_spec lam t : gint lam t = kernel_integrand lam t.
Proof.
  unfold gint, kernel_integrand, sarg. f_equal. f_equal.
  rewrite (Rmult_comm (2 * lam / (lam - 1))).
  replace (((t - 1 / lam) * (2 * lam / (lam - 1)) - 1) ^ 2)%R
    with (((t - 1 / lam) * (2 * lam / (lam - 1)) - 1) * ((t - 1 / lam) * (2 * lam / (lam - 1)) - 1))%R
    by ring.
  unfold Rdiv. ring.
Qed.
Lemma last_panel lam a n : (1 < lam)%R -> 1 <= n ->
  not_end (a + IZR (n - 1 + 1) * ((1 - a) / IZR n)) lam = false.
Proof.
  intros Hlam Hn. assert (0 < IZR n)%R by (apply (IZR_lt 0); lia).
  replace (n - 1 + 1) with n by lia. replace (a + IZR n * ((1 - a) / IZR n))%R with 1%R by (field; lra).
  unfold not_end. rewrite (reqb_true 1 1) by reflexivity. now rewrite orb_true_r.
Qed.
Lemma quad_trap_in lam a n : (1 < lam)%R -> (1 / lam < a < 1)%R -> 3 <= n ->
  quad lam a n = trapezium lam a 0 n.
Proof.
  intros Hlam Ha Hn. unfold quad, quadab, trapezium. rewrite sumZ_zrsum.
  replace n with (n - 1 + 1) at 1 by lia. rewrite zrsum_S by lia. cbv zeta.
  rewrite last_panel, andb_false_r by (auto; lia). rewrite Rplus_0_r, Z.sub_0_r.
  apply zrsum_ext. intros i Hi. cbv zeta. rewrite !panel_in by (auto; try lra; lia). cbn [andb].
  cbv iota. rewrite !gint_spec, Z.add_0_l. unfold Rdiv. ring.
Qed.
Lemma quad_trap_end lam n : (1 < lam)%R -> 3 <= n ->
  quad lam (1 / lam) n = trapezium lam (1 / lam) 1 n.
Proof.
  intros Hlam Hn. pose proof (inv_lam lam Hlam). unfold quad, quadab, trapezium. rewrite sumZ_zrsum.
  replace n with (1 + (n - 2 + 1)) at 1 by lia. rewrite zrsum_split, zrsum_1 by lia. cbv zeta.
  rewrite zrsum_S by lia. cbv zeta.
  replace (1 + (n - 2)) with (n - 1) by lia.
  rewrite last_panel, andb_false_r by (auto; lia).
  assert (E0 : not_end (1 / lam + IZR 0 * ((1 - 1 / lam) / IZR n)) lam = false).
  { replace (1 / lam + IZR 0 * ((1 - 1 / lam) / IZR n))%R with (1 / lam)%R by (unfold Rdiv; ring).
    unfold not_end. now rewrite (reqb_true (1 / lam)) by reflexivity. }
  rewrite E0. cbn [andb]. cbv iota. rewrite Rplus_0_r, Rplus_0_l.
  replace (n - 1 - 1) with (n - 2) by lia.
  apply zrsum_ext. intros i Hi. cbv zeta. rewrite !panel_in by (auto; try lra; lia). cbn [andb].
  cbv iota. rewrite !gint_spec. unfold Rdiv. ring.
Qed.

(*@ C48_generating_function_is_the_quadrature_ratio *)
Lemma k_is_ratio : forall L lam n k j l, 1 <= L -> (1 < lam)%R -> 3 <= n ->
  k_lam L lam n = Ok k -> 0 <= j < rows k -> 0 <= l < L ->
  (powerRZ lam (j - 1) < IZR l < powerRZ lam j)%R ->
  get2 k j l = (trapezium lam (IZR l / powerRZ lam j) 0 n / trapezium lam (1 / lam) 1 n)%R.
Proof.
  intros L lam n k j l HL Hlam Hn E Hj Hl H. destruct (j_max_spec L lam HL Hlam) as (J & EJ & _).
  rewrite (k_lam_ok lam Hlam L n J HL Hn EJ) in E. apply Ok_inj in E. subst k. cbn [rows mk2] in Hj.
  rewrite get2_mk by lia. unfold kv. rewrite !rltb_false by lra.
  assert (Hp : (0 < powerRZ lam j)%R) by (apply pw_pos; lra).
  rewrite quad_trap_end by auto. rewrite quad_trap_in; auto. split.
  - apply (Rmult_lt_reg_r (powerRZ lam j)); auto. rewrite pw_pred in H by lra.
    replace (IZR l / powerRZ lam j * powerRZ lam j)%R with (IZR l) by (field; lra).
    replace (1 / lam * powerRZ lam j)%R with (powerRZ lam j / lam)%R by (field; lra). lra.
  - apply (Rmult_lt_reg_r (powerRZ lam j)); auto.
    replace (IZR l / powerRZ lam j * powerRZ lam j)%R with (IZR l) by (field; lra). lra.
Qed.

(*% l = 3 is the fractional multipole of scale 2 for lam = 2 *)
(*@E C48_example *)
Lemma ex_ratio : exists k, k_lam 5 2 300 = Ok k /\
  get2 k 2 3 = (trapezium 2 (3 / 4) 0 300 / trapezium 2 (1 / 2) 1 300)%R.
Proof.
  destruct j_max_5_2 as (EJ & _).
  assert (E : k_lam 5 2 300 = Ok (mk2 (3 + 2) 5 (kv 2 300))) by (apply k_lam_ok; auto; try lra; lia).
  eexists. split; [exact E|].
  rewrite (k_is_ratio 5 2 300 _ 2 3 ltac:(lia) ltac:(lra) ltac:(lia) E); cbn [rows mk2]; try lia.
  - replace (powerRZ 2 2) with 4%R by (simpl; ring). reflexivity.
  - simpl. lra.
Qed.

(*% ** C49: axisymmetric filters are square roots of generating function differences *)

(*@ C49_vectorised_filters_from_generating_function *)
Lemma vec_from_k : forall L lam J_min J psi phi k, 1 <= L -> (1 < lam)%R ->
  filters_axisym_vectorised L J_min lam = Ok (psi, phi) -> k_lam L lam 300 = Ok k ->
  j_max L lam = Ok J ->
  forall l, 0 <= l < L ->
    get1 phi l = sqrt (get2 k J_min l) /\
    forall j, 0 <= j <= J -> get2 psi j l = sqrt (Rmax 0 (get2 k (j + 1) l - get2 k j l)).
Proof.
  intros L lam J_min J psi phi k HL Hlam E Ek EJ l Hl.
  destruct (inv_vec lam L J_min Hlam HL psi phi E) as (J1 & EJ1 & HJ & -> & ->).
  destruct (inv_k lam L Hlam HL k Ek) as (J2 & EJ2 & _ & ->).
  assert (J1 = J) as -> by (eapply same_J; eauto). assert (J2 = J) as -> by (eapply same_J; eauto).
  unfold phi_ax, psi_vec. rewrite get1_mk, get2_mk by lia. split; [reflexivity|].
  intros j Hj. rewrite !get2_mk by lia. reflexivity.
Qed.

(*% the looped version writes the previous multipole's value where the difference is negative *)
(*@ C49_looped_filters_from_generating_function *)
Lemma loop_from_k : forall L lam J_min J psi phi k, 1 <= L -> (1 < lam)%R ->
  filters_axisym L J_min lam = Ok (psi, phi) -> k_lam L lam 300 = Ok k ->
  j_max L lam = Ok J ->
  forall l, 0 <= l < L ->
    get1 phi l = sqrt (get2 k J_min l) /\
    (forall j, 0 <= j < J_min -> get2 psi j l = 0%R) /\
    forall j, J_min <= j <= J ->
      ((get2 k j l <= get2 k (j + 1) l)%R -> get2 psi j l = sqrt (get2 k (j + 1) l - get2 k j l)) /\
      ((get2 k (j + 1) l < get2 k j l)%R -> 1 <= l /\ get2 psi j l = get2 psi j (l - 1)).
Proof.
  intros L lam J_min J psi phi k HL Hlam E Ek EJ l Hl.
  destruct (inv_axi lam L J_min Hlam HL psi phi E) as (J1 & EJ1 & HJ & -> & ->).
  destruct (inv_k lam L Hlam HL k Ek) as (J2 & EJ2 & _ & ->).
  assert (J1 = J) as -> by (eapply same_J; eauto). assert (J2 = J) as -> by (eapply same_J; eauto).
  unfold phi_ax, psi_loop. rewrite get1_mk, get2_mk by lia. split; [reflexivity|]. split.
  { intros j Hj. rewrite get2_mk by lia. now replace (J_min <=? j) with false by zb. }
  intros j Hj. rewrite !(get2_mk (J + 2)) by lia. rewrite (get2_mk (J + 1) L _ j l) by lia.
  replace (J_min <=? j) with true by zb. split; intros H.
  - rewrite tv_ok; auto using HQ; try lia. unfold kdiff. lra.
  - assert (1 <= l).
    { assert (l <> 0); [|lia]. intros ->. rewrite !kv_l0 in H by assumption. lra. }
    split; [lia|]. rewrite get2_mk by lia. replace (J_min <=? j) with true by zb.
    rewrite tv_step by (auto using HQ; lia). rewrite rltb_true; [reflexivity|].
    unfold kdiff. lra.
Qed.

(*% lam = 2: the multipole 2 is carried by the scale 1 alone *)
(*@E C49_example *)
Lemma ex_from_k : exists psi phi vpsi vphi k, filters_axisym 5 1 2 = Ok (psi, phi) /\
  filters_axisym_vectorised 5 1 2 = Ok (vpsi, vphi) /\ k_lam 5 2 300 = Ok k /\ j_max 5 2 = Ok 3 /\
  get2 k 1 2 = 0%R /\ get2 k 2 2 = 1%R /\ get2 psi 1 2 = 1%R /\ get2 vpsi 1 2 = 1%R /\ get1 phi 1 = 1%R.
Proof.
  destruct j_max_5_2 as (EJ & _).
  destruct (valid_range 5 1 2 3 1 0 0) as ((p & q & E & _) & (vp & vq & Ev & _) & _); auto; try lia; try lra.
  assert (Ek : k_lam 5 2 300 = Ok (mk2 (3 + 2) 5 (kv 2 300))) by (apply k_lam_ok; auto; try lra; lia).
  assert (K1 : kv 2 300 1 2 = 0%R) by (apply kv_zero; try lra; simpl; lra).
  assert (K2 : kv 2 300 2 2 = 1%R) by (apply kv_one; try lra; try lia; simpl; lra).
  assert (K3 : kv 2 300 1 1 = 1%R) by (apply kv_one; try lra; try lia; simpl; lra).
  exists p, q, vp, vq. eexists. split; [exact E|]. split; [exact Ev|]. split; [exact Ek|]. split; [exact EJ|].
  destruct (loop_from_k 5 2 1 3 p q _ ltac:(lia) ltac:(lra) E Ek EJ 2 ltac:(lia)) as (_ & _ & H1).
  destruct (loop_from_k 5 2 1 3 p q _ ltac:(lia) ltac:(lra) E Ek EJ 1 ltac:(lia)) as (H3 & _).
  destruct (vec_from_k 5 2 1 3 vp vq _ ltac:(lia) ltac:(lra) Ev Ek EJ 2 ltac:(lia)) as (_ & H2).
  specialize (H2 1 ltac:(lia)). destruct (H1 1 ltac:(lia)) as (H4 & _).
  rewrite H2, H3. rewrite !get2_mk in * by lia. change (1 + 1) with 2 in *. rewrite H4 by lra. rewrite K1, K2, K3, Rminus_0_r, Rmax_right, sqrt_1 by lra. auto.
Qed.

(*% ** C10: axisymmetric admissibility *)

Lemma vec_total lam L J_min J l : (1 < lam)%R -> 0 <= J_min <= J -> 0 <= l < L ->
  axi_total (psi_vec lam L J) (phi_ax lam L J_min) J_min J l = psum lam Q J_min J l.
Proof.
  intros Hlam HJ Hl. unfold axi_total, psum, psi_vec, phi_ax. rewrite get1_mk by lia. f_equal.
  - apply pow2_sqrt. apply kv_nonneg; auto using HQ.
  - rewrite sumZ_zrsum. apply zrsum_ext. intros i Hi. rewrite get2_mk by lia.
    apply pow2_sqrt. apply Rmax_l.
Qed.

(*@ C10_admissibility *)
Lemma admissibility : forall L lam J_min J psi phi k, 1 <= L -> (1 < lam)%R ->
  filters_axisym_vectorised L J_min lam = Ok (psi, phi) -> k_lam L lam 300 = Ok k ->
  j_max L lam = Ok J ->
  forall l, 0 <= l < L ->
    ((forall j, J_min <= j <= J -> (get2 k j l <= 1)%R) /\ axi_total psi phi J_min J l = 1%R) \/
    (exists j, J_min <= j <= J /\ (powerRZ lam (j - 1) < IZR l < powerRZ lam j)%R /\
       (1 < get2 k j l)%R /\ axi_total psi phi J_min J l = get2 k j l).
Proof.
  intros L lam J_min J psi phi k HL Hlam E Ek EJ l Hl.
  destruct (inv_vec lam L J_min Hlam HL psi phi E) as (J1 & EJ1 & HJ & -> & ->).
  destruct (inv_k lam L Hlam HL k Ek) as (J2 & EJ2 & _ & ->).
  assert (J1 = J) as -> by (eapply same_J; eauto). assert (J2 = J) as -> by (eapply same_J; eauto).
  rewrite vec_total by (auto; lia).
  destruct (psum_cases lam Q Hlam HQ J_min J l) as [[H1 H2]|(j & Hj & H1 & H2)]; try lia.
  { apply (J_covers L lam J l HL Hlam EJ). lia. }
  - left. split; auto. intros j Hj. rewrite get2_mk by lia. auto.
  - right. exists j. rewrite get2_mk by lia. split; [lia|]. split; [|auto]. split.
    + apply Rnot_le_lt. intros H. rewrite (kv_one lam Hlam) in H1 by (auto using HQ). lra.
    + apply Rnot_le_lt. intros H. rewrite (kv_zero lam Hlam) in H1 by auto. lra.
Qed.

Lemma half_le1 lam j l : (1 < lam)%R -> upper_half lam l -> (kv lam Q j l <= 1)%R.
Proof.
  intros Hlam [->|(i & H1 & H2)].
  { rewrite kv_l0 by assumption. lra. }
  assert (Hp : (0 < powerRZ lam i)%R) by (apply pw_pos; lra).
  assert (Hi : (powerRZ lam (i - 1) < IZR l)%R).
  { rewrite pw_pred by lra. pose proof (inv_lam lam Hlam).
    replace (powerRZ lam i / lam)%R with (1 / lam * powerRZ lam i)%R by (field; lra).
    apply Rlt_le_trans with (2 := H1). apply Rmult_lt_compat_r; lra. }
  destruct (Z_lt_le_dec j i) as [Hj|Hj].
  - rewrite kv_zero; [lra|assumption|]. apply Rle_trans with (powerRZ lam (i - 1)); [|lra].
    apply pw_le; auto. lia.
  - destruct (Z.eq_dec j i) as [->|Hne].
    + change Q with (2 * 150). apply kv_half; auto. lia.
    + rewrite kv_one; [lra|assumption|apply HQ|].
      apply Rle_trans with (powerRZ lam i); [lra|]. apply pw_le; auto. lia.
Qed.

(*@ C10_admissibility_exact_in_upper_half *)
Lemma admissibility_half : forall L lam J_min J psi phi, 1 <= L -> (1 < lam)%R ->
  filters_axisym_vectorised L J_min lam = Ok (psi, phi) -> j_max L lam = Ok J ->
  forall l, 0 <= l < L -> upper_half lam l -> axi_total psi phi J_min J l = 1%R.
Proof.
  intros L lam J_min J psi phi HL Hlam E EJ l Hl Hu.
  destruct (inv_vec lam L J_min Hlam HL psi phi E) as (J1 & EJ1 & HJ & -> & ->).
  assert (J1 = J) as -> by (eapply same_J; eauto).
  rewrite vec_total by (auto; lia).
  destruct (psum_cases lam Q Hlam HQ J_min J l) as [[H1 H2]|(j & Hj & H1 & H2)]; try lia; auto.
  { apply (J_covers L lam J l HL Hlam EJ). lia. }
  pose proof (half_le1 lam j l Hlam Hu). lra.
Qed.

Lemma loop_total lam L J_min J l : (1 < lam)%R -> 0 <= J_min <= J -> 0 <= l < L ->
  (forall j, J_min <= j <= J -> (0 <= kdiff lam Q j l)%R) ->
  axi_total (psi_loop lam L J_min J) (phi_ax lam L J_min) J_min J l = psum lam Q J_min J l.
Proof.
  intros Hlam HJ Hl Hd. unfold axi_total, psum, psi_loop, phi_ax. rewrite get1_mk by lia. f_equal.
  - apply pow2_sqrt. apply kv_nonneg; auto using HQ.
  - rewrite sumZ_zrsum. apply zrsum_ext. intros i Hi. rewrite get2_mk by lia.
    replace (J_min <=? J_min + i) with true by zb.
    assert (0 <= kdiff lam Q (J_min + i) l)%R by (apply Hd; lia).
    rewrite tv_ok by (auto using HQ; lia). rewrite Rmax_right by assumption. now apply pow2_sqrt.
Qed.

(*% the looped version: exact where no difference is negative; where one is, the total is the
   ratio plus the square of the repeated value *)
(*@ C10_admissibility_looped *)
Lemma admissibility_looped : forall L lam J_min J psi phi k, 1 <= L -> (1 < lam)%R ->
  filters_axisym L J_min lam = Ok (psi, phi) -> k_lam L lam 300 = Ok k ->
  j_max L lam = Ok J ->
  forall l, 0 <= l < L ->
    ((forall j, J_min <= j <= J -> (get2 k j l <= 1)%R) /\ axi_total psi phi J_min J l = 1%R) \/
    (exists j, J_min <= j <= J /\ (1 < get2 k j l)%R /\
       axi_total psi phi J_min J l = (get2 k j l + get2 psi j (l - 1) ^ 2)%R).
Proof.
  intros L lam J_min J psi phi k HL Hlam E Ek EJ l Hl.
  destruct (loop_from_k L lam J_min J psi phi k HL Hlam E Ek EJ l Hl) as (_ & _ & Hneg).
  destruct (inv_axi lam L J_min Hlam HL psi phi E) as (J1 & EJ1 & HJ & -> & ->).
  destruct (inv_k lam L Hlam HL k Ek) as (J2 & EJ2 & _ & ->).
  assert (J1 = J) as -> by (eapply same_J; eauto). assert (J2 = J) as -> by (eapply same_J; eauto).
  pose proof (J_covers L lam J l HL Hlam EJ ltac:(lia)) as Hc.
  destruct (existsb (fun j => rltb (kdiff lam Q j l) 0) (zrange J_min (J + 1))) eqn:Eb.
  - right. apply existsb_zrange in Eb. destruct Eb as (j & Hj & Eb).
    destruct (rltb_spec (kdiff lam Q j l) 0) as [Hd|]; [|discriminate].
    pose proof (kdiff_neg lam Q Hlam HQ j l Hd) as [[B1 B2] K1].
    exists j. split; [lia|]. rewrite get2_mk by lia. split; [exact K1|].
    destruct (Hneg j ltac:(lia)) as [_ Hn].
    destruct Hn as [Hl1 Hn]. { rewrite !get2_mk by lia. unfold kdiff in Hd. lra. }
    rewrite <- (psum_neg lam Q Hlam HQ J_min J l j ltac:(lia) Hd). rewrite <- Hn. clear Hn Hneg.
    unfold axi_total, psum. unfold phi_ax at 1. rewrite get1_mk by lia.
    rewrite pow2_sqrt by (apply kv_nonneg; auto using HQ). rewrite Rplus_assoc. f_equal.
    rewrite sumZ_zrsum.
    set (i0 := j - J_min). replace j with (J_min + i0) by (unfold i0; lia).
    assert (Hi0 : 0 <= i0 < J + 1 - J_min) by (unfold i0; lia).
    replace (get2 (psi_loop lam L J_min J) (J_min + i0) l ^ 2)%R
      with (zrsum (J + 1 - J_min)
             (fun i => if i =? i0 then get2 (psi_loop lam L J_min J) (J_min + i0) l ^ 2 else 0)%R).
    2:{ rewrite (zrsum_single _ _ i0); [|lia|].
        - now rewrite Z.eqb_refl.
        - intros i Hi Hne. now replace (i =? i0) with false by zb. }
    rewrite zrsum_add. apply zrsum_ext. intros i Hi. destruct (Z.eqb_spec i i0) as [->|Hne].
    + rewrite Rmax_left; [ring|]. replace (J_min + i0) with j by (unfold i0; lia). lra.
    + unfold psi_loop. rewrite get2_mk by lia. replace (J_min <=? J_min + i) with true by zb.
      assert (Hd' : (0 <= kdiff lam Q (J_min + i) l)%R).
      { apply Rnot_lt_le. intros Hd'. destruct (kdiff_neg lam Q Hlam HQ _ l Hd') as [[B3 B4] _].
        assert (j - 1 < J_min + i) by (apply (pw_lt_inv lam); auto; lra).
        assert (J_min + i - 1 < j) by (apply (pw_lt_inv lam); auto; lra). unfold i0 in Hne. lia. }
      rewrite tv_ok by (auto using HQ; lia). rewrite Rmax_right by assumption.
      rewrite pow2_sqrt by assumption. ring.
  - left. assert (Hd : forall j, J_min <= j <= J -> (0 <= kdiff lam Q j l)%R).
    { intros j Hj. apply Rnot_lt_le. intros Hd. apply not_true_iff_false in Eb. apply Eb.
      apply existsb_zrange. exists j. split; [lia|]. now apply rltb_true. }
    rewrite loop_total by (auto; lia). split; [|apply psum_tele; auto using HQ; lia].
    intros j Hj. rewrite get2_mk by lia. specialize (Hd j Hj).
    destruct (Rle_lt_dec (IZR l) (powerRZ lam j)) as [H|H].
    + rewrite kdiff_mid in Hd by (auto using HQ). lra.
    + rewrite kv_zero by (auto; lra). lra.
Qed.

(*@ C10_admissibility_looped_exact_in_upper_half *)
Lemma admissibility_looped_half : forall L lam J_min J psi phi, 1 <= L -> (1 < lam)%R ->
  filters_axisym L J_min lam = Ok (psi, phi) -> j_max L lam = Ok J ->
  forall l, 0 <= l < L -> upper_half lam l -> axi_total psi phi J_min J l = 1%R.
Proof.
  intros L lam J_min J psi phi HL Hlam E EJ l Hl Hu.
  assert (Ek : k_lam L lam 300 = Ok (mk2 (J + 2) L (kv lam 300))) by (apply k_lam_ok; auto; lia).
  destruct (admissibility_looped L lam J_min J psi phi _ HL Hlam E Ek EJ l Hl)
    as [[_ H]|(j & Hj & H & _)]; auto.
  destruct (inv_axi lam L J_min Hlam HL psi phi E) as (J1 & EJ1 & HJ & _).
  assert (J1 = J) as -> by (eapply same_J; eauto).
  rewrite get2_mk in H by lia. pose proof (half_le1 lam j l Hlam Hu) as H'. change Q with 300 in H'. lra.
Qed.

(*% for lam = 2, L = 5: all of 0, 1, 2, 4 are in the upper half of their octave, 3 exactly on its edge *)
(*@E C10_example *)
Lemma ex_adm : exists psi phi, filters_axisym_vectorised 5 0 2 = Ok (psi, phi) /\
  forall l, 0 <= l < 5 -> axi_total psi phi 0 3 l = 1%R.
Proof.
  destruct j_max_5_2 as (EJ & _).
  destruct (valid_range 5 1 2 3 0 0 0) as (_ & (p & q & E & _) & _); auto; try lia; try lra.
  exists p, q. split; auto. intros l Hl.
  apply (admissibility_half 5 2 0 3 p q); auto; try lia; try lra.
  assert (l = 0 \/ l = 1 \/ l = 2 \/ l = 3 \/ l = 4) as [->|[->|[->|[->| ->]]]] by lia.
  - now left.
  - right. exists 0. simpl. lra.
  - right. exists 1. simpl. lra.
  - right. exists 2. simpl. lra.
  - right. exists 2. simpl. lra.
Qed.

(*% ** C11, C21: supports *)

Definition is_F (lam : R) (F : Z -> Z -> R) : Prop := F = tv lam Q \/ F = Fvec lam.

Lemma F_supp lam F j l : (1 < lam)%R -> is_F lam F -> 0 <= l -> F j l <> 0%R ->
  (powerRZ lam (j - 1) < IZR l < powerRZ lam (j + 1))%R /\ 1 <= l.
Proof.
  intros Hlam HF Hl Hne.
  assert (Z1 : (IZR l <= powerRZ lam (j - 1))%R -> F j l = 0%R).
  { intros H. destruct HF as [->| ->].
    - apply tv_low; auto using HQ.
    - unfold Fvec. rewrite kdiff_low by (auto using HQ). rewrite Rmax_left by lra. apply sqrt_0. }
  assert (Z2 : (powerRZ lam (j + 1) <= IZR l)%R -> F j l = 0%R).
  { intros H. destruct HF as [->| ->].
    - apply tv_far; auto using HQ.
    - unfold Fvec. rewrite kdiff_far by (auto using HQ). rewrite Rmax_left by lra. apply sqrt_0. }
  assert (Hl0 : l <> 0).
  { intros ->. apply Hne. destruct HF as [->| ->].
    - rewrite tv_ok; auto using HQ; try lia; rewrite kdiff_l0 by assumption; [apply sqrt_0|lra].
    - unfold Fvec. rewrite kdiff_l0 by assumption. rewrite Rmax_left by lra. apply sqrt_0. }
  repeat split; try lia; apply Rnot_le_lt; auto.
Qed.

Lemma sd_supp N l m : sd N l m <> RtoC 0 ->
  1 <= l /\ Z.abs m <= l /\ Z.abs m < N /\ (m - (N - 1)) mod 2 = 0.
Proof.
  unfold sd. intros H. destruct (Z.leb_spec 1 l); cbn [andb] in H; [|congruence].
  destruct (Z.leb_spec (Z.abs m) l); cbn [andb] in H; [|congruence].
  unfold dmask in H. destruct (Z.ltb_spec (Z.abs m) N); cbn [andb] in H; [|congruence].
  destruct (Z.eqb_spec ((N + m) mod 2) 0); cbn [negb] in H; [congruence|].
  repeat split; auto. Z.div_mod_to_equations. lia.
Qed.

Lemma psid_get F L N lo J spin spin0 j l m : 0 <= j <= J -> 0 <= l < L -> Z.abs m < L ->
  get3 (psid F L N lo J spin spin0) j l (L - 1 + m)
  = if (lo <=? j) && (el_min spin spin0 <=? l)
    then Cmult (RtoC (cpsi l * F j l * wsp spin0 l)) (sd N l m) else RtoC 0.
Proof.
  intros. unfold psid. rewrite get3_mk by lia. now replace (L - 1 + m - (L - 1)) with m by lia.
Qed.

Lemma psid_supp lam F L N lo J spin spin0 j l m : (1 < lam)%R -> is_F lam F -> 1 <= L -> 1 <= N ->
  0 <= lo -> 0 <= j <= J -> 0 <= l < L -> Z.abs m < L ->
  get3 (psid F L N lo J spin spin0) j l (L - 1 + m) <> RtoC 0 ->
  lo <= j /\ el_min spin spin0 <= l /\ Z.abs m <= l /\ Z.abs m < N /\ (m - (N - 1)) mod 2 = 0 /\
  (powerRZ lam (j - 1) < IZR l < powerRZ lam (j + 1))%R /\
  L0_of j lam true <= l < Lj_of L j lam true /\ Z.abs m < Nj_of L j N lam true.
Proof.
  intros Hlam HF HL HN Hlo Hj Hl Hm. rewrite psid_get by assumption.
  destruct (Z.leb_spec lo j); cbn [andb]; [|congruence].
  destruct (Z.leb_spec (el_min spin spin0) l); [|congruence]. intros Hne.
  assert (HFn : F j l <> 0%R).
  { intros E. apply Hne. rewrite E. apply injective_projections; simpl; ring. }
  assert (Hsn : sd N l m <> RtoC 0).
  { intros E. apply Hne. rewrite E. apply injective_projections; simpl; ring. }
  destruct (F_supp lam F j l Hlam HF ltac:(lia) HFn) as [[B1 B2] Hl1].
  destruct (sd_supp N l m Hsn) as (_ & S1 & S2 & S3).
  assert (Hr : L0_of j lam true <= l < Lj_of L j lam true).
  { unfold L0_of, Lj_of. split.
    - apply rceil_le_iff. unfold jj. destruct (Z.eqb_spec j 0) as [->|].
      + simpl. now apply IZR_ge1.
      + lra.
    - apply Z.min_glb_lt; [|lia].
      assert (l < rceil (powerRZ lam (j + 1))).
      { apply Z.nle_gt. intros Hle. apply rceil_le_iff in Hle. lra. }
      apply Z.lt_le_trans with (1 := H1). apply rceil_mono, pw_le; auto. unfold jj. zb. }
  repeat split; auto; try lia.
  unfold Nj_of. pose proof (Z.mod_pos_bound (Z.min N (Lj_of L j lam true) + N) 2). lia.
Qed.

(*@ C11_wavelet_support_looped *)
Lemma supp_looped : forall L N lam J_min J spin spin0 psi phi, 1 <= L -> 1 <= N -> (1 < lam)%R ->
  filters_directional L N J_min lam spin spin0 = Ok (psi, phi) -> j_max L lam = Ok J ->
  forall j l m Lj Nj L0j, 0 <= j <= J -> 0 <= l < L -> Z.abs m < L ->
  LN_j L j N lam true = Ok (Lj, Nj, L0j) ->
  get3 psi j l (L - 1 + m) <> RtoC 0 ->
  J_min <= j /\ (powerRZ lam (j - 1) < IZR l < powerRZ lam (j + 1))%R /\
  L0j <= l < Lj /\ Z.abs m < Nj.
Proof.
  intros L N lam J_min J spin spin0 psi phi HL HN Hlam E EJ j l m Lj Nj L0j Hj Hl Hm EL Hne.
  rewrite LN_j_ok in EL by lra. apply Ok_inj, pair_equal_spec in EL as [EL <-].
  apply pair_equal_spec in EL as [<- <-].
  destruct (inv_dir lam L J_min Hlam HL N spin spin0 psi phi HN E) as (J1 & EJ1 & HJ & -> & ->).
  assert (J1 = J) as -> by (eapply same_J; eauto).
  apply (psid_supp lam) in Hne; auto; try lia; [tauto|now left].
Qed.

(*@ C11_wavelet_support_vectorised *)
Lemma supp_vec : forall L N lam J_min J spin spin0 psi phi, 1 <= L -> 1 <= N -> (1 < lam)%R ->
  filters_directional_vectorised L N J_min lam spin spin0 = Ok (psi, phi) \/
  filters_directional_jax L N J_min lam spin spin0 = Ok (psi, phi) ->
  j_max L lam = Ok J ->
  forall j l m Lj Nj L0j, 0 <= j <= J -> 0 <= l < L -> Z.abs m < L ->
  LN_j L j N lam true = Ok (Lj, Nj, L0j) ->
  get3 psi j l (L - 1 + m) <> RtoC 0 ->
  (powerRZ lam (j - 1) < IZR l < powerRZ lam (j + 1))%R /\
  L0j <= l < Lj /\ Z.abs m < Nj.
Proof.
  intros L N lam J_min J spin spin0 psi phi HL HN Hlam E EJ j l m Lj Nj L0j Hj Hl Hm EL Hne.
  rewrite LN_j_ok in EL by lra. apply Ok_inj, pair_equal_spec in EL as [EL <-].
  apply pair_equal_spec in EL as [<- <-].
  assert (E' : filters_directional_vectorised L N J_min lam spin spin0 = Ok (psi, phi)).
  { destruct E as [E|E]; auto. destruct (Z.eq_dec spin0 0) as [->|Hs].
    - now apply jax_to_vec.
    - rewrite spin_fail_jax in E by assumption. discriminate. }
  destruct (inv_dvec lam L J_min Hlam HL N spin spin0 psi phi HN E') as (J1 & EJ1 & HJ & -> & -> & ->).
  assert (J1 = J) as -> by (eapply same_J; eauto).
  apply (psid_supp lam) in Hne; auto; try lia; [tauto|now right].
Qed.

Lemma phid_supp lam L J_min spin spin0 l : (1 < lam)%R -> 0 <= l < L -> 0 <= J_min ->
  get1 (phid lam L J_min spin spin0) l <> 0%R ->
  el_min spin spin0 <= l /\ (IZR l < powerRZ lam J_min)%R /\ l < Ls_of L J_min lam true.
Proof.
  intros Hlam Hl HJ. unfold phid. rewrite get1_mk by lia.
  destruct (Z.leb_spec (el_min spin spin0) l); [|congruence]. intros Hne.
  assert (IZR l < powerRZ lam J_min)%R.
  { apply Rnot_le_lt. intros Hle. apply Hne. rewrite kv_zero by assumption. rewrite sqrt_0. ring. }
  repeat split; auto. unfold Ls_of. apply Z.min_glb_lt; [|lia].
  apply Z.nle_gt. intros Hle. apply rceil_le_iff in Hle. lra.
Qed.

(*@ C11_scaling_support *)
Lemma supp_scal : forall L N lam J_min spin spin0 psi phi, 1 <= L -> 1 <= N -> (1 < lam)%R ->
  filters_directional L N J_min lam spin spin0 = Ok (psi, phi) \/
  filters_directional_vectorised L N J_min lam spin spin0 = Ok (psi, phi) \/
  filters_directional_jax L N J_min lam spin spin0 = Ok (psi, phi) ->
  forall l Ls, 0 <= l < L -> scal_bandlimit L J_min lam true = Ok Ls ->
  get1 phi l <> 0%R -> (IZR l < powerRZ lam J_min)%R /\ l < Ls.
Proof.
  intros L N lam J_min spin spin0 psi phi HL HN Hlam E l Ls Hl EL Hne.
  rewrite scal_bandlimit_ok in EL by lra. apply Ok_inj in EL. subst Ls.
  assert (E' : filters_directional L N J_min lam spin spin0 = Ok (psi, phi) \/
               filters_directional_vectorised L N J_min lam spin spin0 = Ok (psi, phi)).
  { destruct E as [E|[E|E]]; auto. right. destruct (Z.eq_dec spin0 0) as [->|Hs].
    - now apply jax_to_vec.
    - rewrite spin_fail_jax in E by assumption. discriminate. }
  destruct E' as [E'|E'].
  - destruct (inv_dir lam L J_min Hlam HL N spin spin0 psi phi HN E') as (J & EJ & HJ & -> & ->).
    apply phid_supp in Hne; auto; [tauto|lia].
  - destruct (inv_dvec lam L J_min Hlam HL N spin spin0 psi phi HN E')
      as (J & EJ & HJ & -> & -> & ->).
    apply phid_supp in Hne; auto; [tauto|lia].
Qed.

Lemma kd_1_2 : kdiff 2 Q 1 2 = 1%R.
Proof. rewrite kdiff_mid by (try apply HQ; simpl; lra). rewrite kv_zero by (try lra; simpl; lra). ring. Qed.
Lemma sd_2_0 N : N = 3 \/ N = 7 -> sd N 2 0 <> RtoC 0.
Proof.
  intros H. unfold sd. replace ((1 <=? 2) && (Z.abs 0 <=? 2) && dmask N 0) with true by (destruct H as [-> | ->]; reflexivity).
  assert (B : sqrt (dsq N 2 0) <> 0%R).
  { apply Rgt_not_eq, sqrt_lt_R0. unfold dsq. replace (gam N 2) with 2 by (destruct H as [-> | ->]; reflexivity).
    change (pascal_tri _ _) with 2%nat. simpl. lra. }
  unfold nu. replace (N mod 2 =? 0) with false by (destruct H as [-> | ->]; reflexivity).
  apply Cmult_neq_0; [intros E; apply RtoC_inj in E; lra|intros E; apply B; now apply RtoC_inj].
Qed.
Lemma psid_1_2 N spin : N = 3 \/ N = 7 -> Z.abs spin <= 2 -> get3 (psid (tv 2 Q) 5 N 1 3 spin 0) 1 2 (5 - 1 + 0) <> RtoC 0.
Proof.
  intros HN H. rewrite psid_get by lia. replace (el_min spin 0 <=? 2) with true by (unfold el_min; zb). cbn [andb Z.leb Z.compare].
  rewrite tv_ok by (auto using HQ; rewrite ?kd_1_2; try lra; lia). rewrite kd_1_2, sqrt_1. change (wsp 0 2) with 1%R.
  assert (A : (cpsi 2 * 1 * 1)%R <> 0%R).
  { unfold cpsi. pose proof PI_RGT_0. rewrite !Rmult_1_r. apply Rgt_not_eq, sqrt_lt_R0. apply Rdiv_lt_0_compat; [apply IZR_lt; lia|].
    apply Rmult_lt_0_compat; lra. }
  apply Cmult_neq_0; [intros E; apply A; now apply RtoC_inj|now apply sd_2_0].
Qed.

(*% scale 1 of lam = 2 keeps [1, 4), and l = 2, m = 0 really is in the support *)
(*@E C11_example *)
Lemma ex_supp : exists psi phi, filters_directional 5 3 1 2 0 0 = Ok (psi, phi) /\ j_max 5 2 = Ok 3 /\
  get3 psi 1 2 (5 - 1 + 0) <> RtoC 0 /\ LN_j 5 1 3 2 true = Ok (4, 3, 1) /\ scal_bandlimit 5 1 2 true = Ok 2.
Proof.
  destruct j_max_5_2 as (EJ & _). do 2 eexists.
  split; [apply (filters_directional_ok 2 ltac:(lra) 5 3 1 3); auto; lia|]. split; [exact EJ|]. split; [apply psid_1_2; auto; lia|].
  rewrite LN_j_ok, scal_bandlimit_ok by lra. unfold Lj_of, Nj_of, L0_of, Ls_of, Lj_of.
  change (jj 1) with 1.
  assert (E4 : rceil (powerRZ 2 (1 + 1)) = 4).
  { replace (powerRZ 2 (1 + 1)) with (IZR 4) by (simpl; ring). apply Zceil_IZR. }
  assert (E1 : rceil (powerRZ 2 (1 - 1)) = 1).
  { replace (powerRZ 2 (1 - 1)) with (IZR 1) by (simpl; ring). apply Zceil_IZR. }
  assert (E2 : rceil (powerRZ 2 1) = 2).
  { replace (powerRZ 2 1) with (IZR 2) by (simpl; ring). apply Zceil_IZR. }
  rewrite E4, E1, E2. split; reflexivity.
Qed.

(*@ C21_filters_vanish_below_spin *)
Lemma vanish_spin : forall L N lam J_min J spin spin0 psi phi, 1 <= L -> 1 <= N -> (1 < lam)%R ->
  filters_directional L N J_min lam spin spin0 = Ok (psi, phi) \/
  filters_directional_vectorised L N J_min lam spin spin0 = Ok (psi, phi) \/
  filters_directional_jax L N J_min lam spin spin0 = Ok (psi, phi) ->
  j_max L lam = Ok J ->
  forall l, 0 <= l < L ->
  (l < Z.abs spin \/ l < Z.abs spin0 -> get1 phi l = 0%R) /\
  forall j m, 0 <= j <= J -> Z.abs m < L ->
    l < Z.abs spin \/ l < Z.abs spin0 \/ l < Z.abs m \/ N <= Z.abs m \/ Z.even (m - (N - 1)) = false ->
    get3 psi j l (L - 1 + m) = RtoC 0.
Proof.
  intros L N lam J_min J spin spin0 psi phi HL HN Hlam E EJ l Hl.
  assert (E' : filters_directional L N J_min lam spin spin0 = Ok (psi, phi) \/
               filters_directional_vectorised L N J_min lam spin spin0 = Ok (psi, phi)).
  { destruct E as [E|[E|E]]; auto. right. destruct (Z.eq_dec spin0 0) as [->|Hs].
    - now apply jax_to_vec.
    - rewrite spin_fail_jax in E by assumption. discriminate. }
  assert (Hp : forall F lo, is_F lam F -> 0 <= lo -> forall j m, 0 <= j <= J -> Z.abs m < L ->
    l < Z.abs spin \/ l < Z.abs spin0 \/ l < Z.abs m \/ N <= Z.abs m \/ Z.even (m - (N - 1)) = false ->
    get3 (psid F L N lo J spin spin0) j l (L - 1 + m) = RtoC 0).
  { intros F lo HF Hlo j m Hj Hm H.
    destruct (Ceq_dec (get3 (psid F L N lo J spin spin0) j l (L - 1 + m)) (RtoC 0)) as [|Hne]; auto.
    apply (psid_supp lam) in Hne; auto. destruct Hne as (_ & H1 & H2 & H3 & H4 & _).
    unfold el_min in H1. rewrite Zmod_even in H4.
    destruct (Z.even (m - (N - 1))); [|discriminate].
    exfalso. destruct H as [?|[?|[?|[?|?]]]]; lia. }
  assert (Hph : l < Z.abs spin \/ l < Z.abs spin0 -> get1 (phid lam L J_min spin spin0) l = 0%R).
  { intros H. unfold phid. rewrite get1_mk by lia.
    destruct (Z.leb_spec (el_min spin spin0) l); auto. unfold el_min in *. lia. }
  destruct E' as [E'|E'].
  - destruct (inv_dir lam L J_min Hlam HL N spin spin0 psi phi HN E') as (J1 & EJ1 & HJ & -> & ->).
    assert (J1 = J) as -> by (eapply same_J; eauto). split; auto.
    apply Hp; [now left|lia].
  - destruct (inv_dvec lam L J_min Hlam HL N spin spin0 psi phi HN E')
      as (J1 & EJ1 & HJ & -> & -> & ->).
    assert (J1 = J) as -> by (eapply same_J; eauto). split; auto.
    apply Hp; [now right|lia].
Qed.

(*% spin 2 removes the multipole 1, which the spin 0 filters have, and keeps the multipole 2 *)
(*@E C21_example *)
Lemma ex_spin_cut : exists psi phi psi0 phi0, filters_directional 5 3 1 2 2 0 = Ok (psi, phi) /\
  filters_directional 5 3 1 2 0 0 = Ok (psi0, phi0) /\ j_max 5 2 = Ok 3 /\
  get1 phi0 1 <> 0%R /\ get1 phi 1 = 0%R /\ get3 psi 1 2 (5 - 1 + 0) <> RtoC 0.
Proof.
  destruct j_max_5_2 as (EJ & _). do 4 eexists.
  split; [apply (filters_directional_ok 2 ltac:(lra) 5 3 1 3); auto; lia|].
  split; [apply (filters_directional_ok 2 ltac:(lra) 5 3 1 3); auto; lia|]. split; [exact EJ|]. split; [|split; [|apply psid_1_2; auto; lia]].
  - unfold phid. rewrite get1_mk by lia. change (el_min 0 0 <=? 1) with true. cbv iota. change (wsp 0 1) with 1%R.
    rewrite kv_one by (try lra; try apply HQ; simpl; lra). rewrite sqrt_1.
    unfold cphi. pose proof PI_RGT_0. rewrite !Rmult_1_r. apply Rgt_not_eq, sqrt_lt_R0. apply Rdiv_lt_0_compat; [apply IZR_lt; lia|lra].
  - unfold phid. rewrite get1_mk by lia. reflexivity.
Qed.

(*% ** C12: directional component is normalised *)

(*@ C12_directional_component *)
Lemma dir_component : forall L N, 1 <= L -> 1 <= N ->
  exists s, tiling_direction L N = Ok s /\ shape2 s = [L; 2 * L - 1] /\
    (forall l, 1 <= l < L -> sumZ (- l) (l + 1) (fun m => Cmod (get2 s l (L - 1 + m)) ^ 2)%R = 1%R) /\
    (forall l m, 0 <= l < L -> Z.abs m < L -> get2 s l (L - 1 + m) <> RtoC 0 ->
       1 <= l /\ Z.abs m <= l /\ Z.abs m <= N - 1 /\ Z.even (m - (N - 1)) = true).
Proof.
  intros L N HL HN. exists (s_arr L N).
  split; [apply tiling_direction_with_ok; auto; apply loggamma_ok|]. split; [reflexivity|].
  assert (G : forall l m, 0 <= l < L -> Z.abs m < L -> get2 (s_arr L N) l (L - 1 + m) = sd N l m).
  { intros l m Hl Hm. unfold s_arr. rewrite get2_mk by lia. f_equal. lia. }
  split.
  - intros l Hl. rewrite sumZ_zrsum. rewrite <- (sd_norm N l HN) by lia.
    replace (l + 1 - - l) with (2 * l + 1) by lia. apply zrsum_ext. intros i Hi.
    rewrite G by lia. now replace (- l + i) with (i - l) by lia.
  - intros l m Hl Hm. rewrite G by lia. intros H. apply sd_supp in H as (H1 & H2 & H3 & H4).
    rewrite Zmod_even in H4. destruct (Z.even (m - (N - 1))); [|discriminate].
    repeat split; auto; lia.
Qed.

Lemma tri_C n k : (k <= n)%nat -> INR (pascal_tri n k) = Binomial.C n k.
Proof.
  intros H. unfold Binomial.C. rewrite <- (tri_fact n k H), !mult_INR.
  pose proof (fact_posR k). pose proof (fact_posR (n - k)). field. lra.
Qed.

(*% closed form: s_lm = (1 or i) sqrt(C(g, (g-m)/2) / 2^g), g = min(N-1, l) adjusted to the parity of N-1 *)
(*@ C12_directional_component_closed_form *)
Lemma dir_closed : forall L N s, 1 <= L -> 1 <= N -> tiling_direction L N = Ok s ->
  forall l m, 1 <= l < L -> Z.abs m <= l -> Z.abs m <= N - 1 -> Z.even (m - (N - 1)) = true ->
  exists g k : nat, Z.of_nat g = (if Z.even (l - (N - 1)) then Z.min (N - 1) l else Z.min (N - 1) (l - 1)) /\
    2 * Z.of_nat k = Z.of_nat g - m /\ (k <= g)%nat /\
    get2 s l (L - 1 + m) = Cmult (if Z.odd N then RtoC 1 else Ci) (RtoC (sqrt (Binomial.C g k / 2 ^ g))).
Proof.
  intros L N s HL HN E l m Hl Hm HmN Hpar.
  unfold tiling_direction in E. rewrite tiling_direction_with_ok in E by (auto; apply loggamma_ok).
  apply Ok_inj in E. subst s.
  assert (Hd : dmask N m = true).
  { unfold dmask. apply andb_true_iff. split; [apply Z.ltb_lt; lia|].
    apply negb_true_iff, Z.eqb_neq. rewrite Zmod_even.
    replace (N + m) with (m - (N - 1) + 1 + 2 * (N - 1)) by lia.
    rewrite Z.even_add_mul_2, Z.even_add, Hpar. simpl. lia. }
  destruct (gam_mask N l m HN ltac:(lia) Hm Hd) as (Hg & k & Hk & Hkr).
  exists (Z.to_nat (gam N l)), (Z.to_nat k).
  pose proof (gam_range N l HN ltac:(lia)) as [Hg1 _].
  rewrite !Z2Nat.id by lia. repeat split.
  - unfold gam. rewrite Zmod_even.
    replace (N + l) with (l - (N - 1) + 1 + 2 * (N - 1)) by lia.
    rewrite Z.even_add_mul_2, Z.even_add. change (Z.even 1) with false.
    destruct (Z.even (l - (N - 1))); reflexivity.
  - lia.
  - lia.
  - unfold s_arr. rewrite get2_mk by lia. replace (L - 1 + m - (L - 1)) with m by lia.
    unfold sd. replace (1 <=? l) with true by zb. replace (Z.abs m <=? l) with true by zb.
    rewrite Hd. cbn [andb]. unfold nu, dsq. rewrite Hk.
    replace (2 * k / 2) with k by (rewrite Z.mul_comm, Z.div_mul; lia).
    rewrite tri_C by lia. f_equal. rewrite Zmod_even, <- Z.negb_even.
    destruct (Z.even N); reflexivity.
Qed.

(*@E C12_example *)
Lemma ex_dir : exists s, tiling_direction 4 3 = Ok s /\
  get2 s 2 (4 - 1 + 0) = RtoC (sqrt (2 / 4)) /\ get2 s 2 (4 - 1 + 1) = RtoC 0.
Proof.
  destruct (dir_component 4 3 ltac:(lia) ltac:(lia)) as (s & E & _ & _ & Hs). exists s.
  split; auto. split.
  - destruct (dir_closed 4 3 s ltac:(lia) ltac:(lia) E 2 0 ltac:(lia) ltac:(lia) ltac:(lia) eq_refl)
      as (g & k & Hg & Hk & _ & ->).
    change (if Z.even (2 - (3 - 1)) then Z.min (3 - 1) 2 else Z.min (3 - 1) (2 - 1)) with 2 in Hg.
    assert (g = 2%nat) as -> by lia. assert (k = 1%nat) as -> by lia.
    rewrite <- tri_C by lia. cbn [Z.odd pascal_tri Nat.add INR pow].
    replace ((1 + 1) / (2 * (2 * 1)))%R with (2 / 4)%R by lra.
    apply injective_projections; simpl; ring.
  - destruct (Ceq_dec (get2 s 2 (4 - 1 + 1)) (RtoC 0)) as [|Hne]; auto.
    apply Hs in Hne; try lia. destruct Hne as (_ & _ & _ & H). discriminate.
Qed.

(*% ** C13: binomial coefficient by log-gamma rounding *)

(*@ C13_binomial_exact *)
Lemma binom_exact : forall n k : nat, (k <= n)%nat ->
  binomial_coefficient (INR n) (INR k) = Binomial.C n k /\
  binomial_coefficient_jax (INR n) (INR k) = Binomial.C n k.
Proof.
  intros n k H. rewrite <- tri_C by assumption.
  split; apply binomial_with_ok; auto; apply loggamma_ok.
Qed.

(*% any log-gamma whose exponential is within 1/2 of the true value is good enough *)
(*@ C13_binomial_robust *)
Lemma binom_robust : forall (lg : R -> R) (n k : nat), (k <= n)%nat ->
  (Rabs (exp (lg (INR n + 1) - lg (INR k + 1) - lg (INR n - INR k + 1)) - Binomial.C n k) < 1 / 2)%R ->
  binomial_with lg (INR n) (INR k) = Binomial.C n k.
Proof.
  intros lg n k Hk H. rewrite <- tri_C in * by assumption. unfold binomial_with.
  rewrite (INR_IZR_INZ (pascal_tri n k)) in *.
  set (e := (exp (lg (INR n + 1) - lg (INR k + 1) - lg (INR n - INR k + 1))
             - IZR (Z.of_nat (pascal_tri n k)))%R) in *.
  replace (exp (lg (INR n + 1) - lg (INR k + 1) - lg (INR n - INR k + 1)))%R
    with (IZR (Z.of_nat (pascal_tri n k)) + e)%R by (unfold e; ring).
  now rewrite floor_half.
Qed.

(*@E C13_example *)
Lemma ex_binom : binomial_coefficient (INR 4) (INR 2) = 6%R.
Proof.
  rewrite (proj1 (binom_exact 4 2 ltac:(lia))). rewrite <- tri_C by lia. simpl. ring.
Qed.

(*% ** C14: directional admissibility *)

Lemma wsp_sq spin0 l : Z.abs spin0 <= l -> (wsp spin0 l ^ 2 = spin_ratio l spin0)%R.
Proof.
  intros H. unfold wsp, spin_ratio, factorial. destruct (Z.eqb_spec spin0 0) as [->|Hs].
  - rewrite Z.add_0_r, Z.sub_0_r. pose proof (fact_posR (Z.to_nat l)). field. lra.
  - rewrite Rpow_mult_distr. unfold snorm. rewrite pow2_sqrt by (left; apply ratio_pos).
    unfold msgn, fct. destruct (Z.even spin0); field; apply not_0_INR, fact_neq_0.
Qed.
Lemma ratio_0 l : 0 <= l -> spin_ratio l 0 = 1%R.
Proof.
  intros. unfold spin_ratio, factorial. rewrite Z.add_0_r, Z.sub_0_r.
  field. apply not_0_INR, fact_neq_0.
Qed.
Lemma cpsi_sq l : 0 <= l -> (cpsi l ^ 2 = (2 * IZR l + 1) / (8 * PI ^ 2))%R.
Proof.
  intros H. pose proof PI_RGT_0. assert (0 <= IZR l)%R by now apply (IZR_le 0).
  unfold cpsi. rewrite pow2_sqrt, plus_IZR, mult_IZR.
  - simpl. f_equal. ring.
  - apply Rdiv_le_0_compat; [rewrite plus_IZR, mult_IZR; lra|].
    apply Rmult_lt_0_compat; [apply Rmult_lt_0_compat; lra|lra].
Qed.
Lemma cphi_sq l : 0 <= l -> (cphi l ^ 2 = (2 * IZR l + 1) / (4 * PI))%R.
Proof.
  intros H. pose proof PI_RGT_0. assert (0 <= IZR l)%R by now apply (IZR_le 0).
  unfold cphi. rewrite pow2_sqrt, plus_IZR, mult_IZR.
  - reflexivity.
  - apply Rdiv_le_0_compat; [rewrite plus_IZR, mult_IZR; lra|lra].
Qed.

Lemma psid_msum lam F L N lo J spin spin0 j l : (1 < lam)%R -> is_F lam F -> 1 <= N ->
  lo <= j -> 0 <= j <= J -> 0 <= l < L -> el_min spin spin0 <= l ->
  sumZ (- l) (l + 1) (fun m => Cmod (get3 (psid F L N lo J spin spin0) j l (L - 1 + m)) ^ 2)%R
  = (cpsi l ^ 2 * wsp spin0 l ^ 2 * F j l ^ 2)%R.
Proof.
  intros Hlam HF HN Hlo Hj Hl He.
  rewrite (sumZ_ext _ _ _ (fun m => cpsi l ^ 2 * wsp spin0 l ^ 2 * F j l ^ 2 * Cmod (sd N l m) ^ 2)%R).
  2:{ intros m Hm. rewrite psid_get by lia. replace (lo <=? j) with true by zb.
      replace (el_min spin spin0 <=? l) with true by zb. cbn [andb].
      rewrite Cmod_mult, Cmod_R, Rpow_mult_distr, pow2_abs. ring. }
  rewrite sumZ_mul. destruct (Z.eq_dec l 0) as [->|Hl0].
  - assert (F j 0 = 0%R) as ->.
    { destruct (Req_dec (F j 0) 0) as [|Hne]; auto.
      apply (F_supp lam F j 0) in Hne; auto; lia. }
    ring.
  - rewrite sumZ_zrsum. replace (l + 1 - - l) with (2 * l + 1) by lia.
    rewrite (zrsum_ext _ _ (fun i => Cmod (sd N l (i - l)) ^ 2)%R)
      by (intros; now replace (- l + k) with (k - l) by lia).
    rewrite sd_norm by lia. ring.
Qed.

Lemma dir_total_F lam F L N J_min lo J spin spin0 l : (1 < lam)%R -> is_F lam F -> 1 <= N ->
  0 <= J_min -> lo <= J_min -> 0 <= l < L -> el_min spin spin0 <= l ->
  dir_total L (psid F L N lo J spin spin0) (phid lam L J_min spin spin0) J_min J l
  = (spin_ratio l spin0 * (kv lam Q J_min l + sumZ J_min (J + 1) (fun j => F j l ^ 2)))%R.
Proof.
  intros Hlam HF HN HJ0 Hlo Hl He. unfold dir_total.
  rewrite (sumZ_ext _ _ _ (fun j => cpsi l ^ 2 * wsp spin0 l ^ 2 * F j l ^ 2)%R).
  2:{ intros j Hj. apply (psid_msum lam); auto; lia. }
  rewrite sumZ_mul. unfold phid. rewrite get1_mk by lia.
  replace (el_min spin spin0 <=? l) with true by zb.
  rewrite !Rpow_mult_distr, cphi_sq, cpsi_sq, wsp_sq, pow2_sqrt;
    [|apply kv_nonneg; auto using HQ|unfold el_min in He; lia|lia|lia].
  pose proof PI_RGT_0. assert (0 <= IZR l)%R by (apply (IZR_le 0); lia). field. lra.
Qed.

Lemma loop_total_tv lam L J_min J l : (1 < lam)%R -> 0 <= J_min <= J -> 0 <= l < L ->
  axi_total (psi_loop lam L J_min J) (phi_ax lam L J_min) J_min J l
  = (kv lam Q J_min l + sumZ J_min (J + 1) (fun j => tv lam Q j l ^ 2))%R.
Proof.
  intros Hlam HJ Hl. unfold axi_total, phi_ax. rewrite get1_mk by lia. f_equal.
  - apply pow2_sqrt. apply kv_nonneg; auto using HQ.
  - apply sumZ_ext. intros j Hj. unfold psi_loop. rewrite get2_mk by lia.
    now replace (J_min <=? j) with true by zb.
Qed.
Lemma vec_total_F lam L J_min J l : (1 < lam)%R -> 0 <= J_min <= J -> 0 <= l < L ->
  axi_total (psi_vec lam L J) (phi_ax lam L J_min) J_min J l
  = (kv lam Q J_min l + sumZ J_min (J + 1) (fun j => Fvec lam j l ^ 2))%R.
Proof.
  intros Hlam HJ Hl. unfold axi_total, phi_ax. rewrite get1_mk by lia. f_equal.
  - apply pow2_sqrt. apply kv_nonneg; auto using HQ.
  - apply sumZ_ext. intros j Hj. unfold psi_vec. now rewrite get2_mk by lia.
Qed.

(*% the directional total is the axisymmetric one times the spin ratio (l+spin0)!/(l-spin0)!,
   which is 1 for spin0 = 0 *)
(*@ C14_directional_total_looped *)
Lemma dir_adm_looped : forall L N lam J_min J spin spin0 psi phi apsi aphi,
  1 <= L -> 1 <= N -> (1 < lam)%R ->
  filters_directional L N J_min lam spin spin0 = Ok (psi, phi) ->
  filters_axisym L J_min lam = Ok (apsi, aphi) -> j_max L lam = Ok J ->
  forall l, Z.max (Z.abs spin) (Z.abs spin0) <= l < L ->
  dir_total L psi phi J_min J l = (spin_ratio l spin0 * axi_total apsi aphi J_min J l)%R.
Proof.
  intros L N lam J_min J spin spin0 psi phi apsi aphi HL HN Hlam E Ea EJ l Hl.
  destruct (inv_dir lam L J_min Hlam HL N spin spin0 psi phi HN E) as (J1 & EJ1 & HJ & -> & ->).
  destruct (inv_axi lam L J_min Hlam HL apsi aphi Ea) as (J2 & EJ2 & _ & -> & ->).
  assert (J1 = J) as -> by (eapply same_J; eauto). assert (J2 = J) as -> by (eapply same_J; eauto).
  rewrite (dir_total_F lam) by (auto; unfold el_min, is_F; try lia; try (now left)).
  rewrite loop_total_tv by (auto; lia). reflexivity.
Qed.

(*@ C14_directional_admissibility_looped *)
Lemma dir_adm_looped_one : forall L N lam J_min J spin psi phi k,
  1 <= L -> 1 <= N -> (1 < lam)%R ->
  filters_directional L N J_min lam spin 0 = Ok (psi, phi) ->
  k_lam L lam 300 = Ok k -> j_max L lam = Ok J ->
  forall l, Z.abs spin <= l < L -> (forall j, J_min <= j <= J -> (get2 k j l <= 1)%R) ->
  dir_total L psi phi J_min J l = 1%R.
Proof.
  intros L N lam J_min J spin psi phi k HL HN Hlam E Ek EJ l Hl Hk.
  pose proof (inv_dir lam L J_min Hlam HL N spin 0 psi phi HN E) as (J1 & EJ1 & HJ & _).
  assert (J1 = J) as -> by (eapply same_J; eauto).
  pose proof (filters_axisym_ok lam Hlam L J_min J HL EJ HJ) as Ea.
  rewrite (dir_adm_looped L N lam J_min J spin 0 psi phi _ _ HL HN Hlam E Ea EJ l) by lia.
  rewrite ratio_0, Rmult_1_l by lia.
  destruct (admissibility_looped L lam J_min J _ _ k HL Hlam Ea Ek EJ l ltac:(lia))
    as [[_ H]|(j & Hj & H & _)]; auto.
  specialize (Hk j Hj). lra.
Qed.

(*@ C14_directional_admissibility_vectorised *)
Lemma dir_adm_vec : forall L N lam J_min J spin spin0 psi phi k,
  1 <= L -> 1 <= N -> (1 < lam)%R ->
  filters_directional_vectorised L N J_min lam spin spin0 = Ok (psi, phi) ->
  k_lam L lam 300 = Ok k -> j_max L lam = Ok J ->
  forall l, Z.abs spin <= l < L ->
    ((forall j, J_min <= j <= J -> (get2 k j l <= 1)%R) /\ dir_total L psi phi J_min J l = 1%R) \/
    (exists j, J_min <= j <= J /\ (powerRZ lam (j - 1) < IZR l < powerRZ lam j)%R /\
       (1 < get2 k j l)%R /\ dir_total L psi phi J_min J l = get2 k j l).
Proof.
  intros L N lam J_min J spin spin0 psi phi k HL HN Hlam E Ek EJ l Hl.
  destruct (inv_dvec lam L J_min Hlam HL N spin spin0 psi phi HN E) as (J1 & EJ1 & HJ & -> & -> & ->).
  assert (J1 = J) as -> by (eapply same_J; eauto).
  pose proof (filters_axisym_vec_ok lam Hlam L J_min J HL EJ HJ) as Ea.
  rewrite (dir_total_F lam) by (auto; unfold el_min; try lia; try (now right)).
  rewrite ratio_0, Rmult_1_l by lia.
  rewrite <- (vec_total_F lam L) by (auto; lia).
  apply (admissibility L lam J_min J _ _ k HL Hlam Ea Ek EJ l). lia.
Qed.

(*@ C14_directional_admissibility_upper_half *)
Lemma dir_adm_half : forall L N lam J_min J spin psi phi,
  1 <= L -> 1 <= N -> (1 < lam)%R ->
  filters_directional L N J_min lam spin 0 = Ok (psi, phi) \/
  filters_directional_vectorised L N J_min lam spin 0 = Ok (psi, phi) \/
  filters_directional_jax L N J_min lam spin 0 = Ok (psi, phi) ->
  j_max L lam = Ok J ->
  forall l, Z.abs spin <= l < L -> upper_half lam l -> dir_total L psi phi J_min J l = 1%R.
Proof.
  intros L N lam J_min J spin psi phi HL HN Hlam E EJ l Hl Hu.
  pose proof (k_lam_ok lam Hlam L 300 J HL ltac:(lia) EJ) as Ek.
  assert (E0 : filters_directional L N J_min lam spin 0 = Ok (psi, phi) \/ filters_directional_vectorised L N J_min lam spin 0 = Ok (psi, phi))
    by (destruct E as [E|[E|E]]; [left; exact E|right; exact E|right; apply jax_to_vec; auto]).
  clear E. destruct E0 as [E|E].
  - pose proof (inv_dir lam L J_min Hlam HL N spin 0 psi phi HN E) as (J1 & EJ1 & HJ & _).
    assert (J1 = J) as -> by (eapply same_J; eauto).
    apply (dir_adm_looped_one L N lam J_min J spin psi phi _ HL HN Hlam E Ek EJ l Hl).
    intros j Hj. rewrite get2_mk by lia. apply (half_le1 lam j l Hlam Hu).
  - assert (E' : filters_directional_vectorised L N J_min lam spin 0 = Ok (psi, phi)) by tauto.
    pose proof (inv_dvec lam L J_min Hlam HL N spin 0 psi phi HN E') as (J1 & EJ1 & HJ & _).
    assert (J1 = J) as -> by (eapply same_J; eauto).
    destruct (dir_adm_vec L N lam J_min J spin 0 psi phi _ HL HN Hlam E' Ek EJ l Hl)
      as [[_ H]|(j & Hj & _ & H & _)]; auto.
    rewrite get2_mk in H by lia. pose proof (half_le1 lam j l Hlam Hu) as H'.
    change Q with 300 in H'. lra.
Qed.

(*@E C14_example *)
Lemma ex_dir_adm : exists psi phi, filters_directional 5 3 1 2 0 0 = Ok (psi, phi) /\
  forall l, 0 <= l < 5 -> dir_total 5 psi phi 1 3 l = 1%R.
Proof.
  destruct j_max_5_2 as (EJ & _).
  destruct (valid_range 5 3 2 3 1 0 0) as (_ & _ & _ & (p & q & E & _) & _); auto; try lia; try lra.
  exists p, q. split; auto. intros l Hl.
  apply (dir_adm_half 5 3 2 1 3 0 p q); auto; try lia; try lra.
  assert (l = 0 \/ l = 1 \/ l = 2 \/ l = 3 \/ l = 4) as [->|[->|[->|[->| ->]]]] by lia.
  - now left.
  - right. exists 0. simpl. lra.
  - right. exists 1. simpl. lra.
  - right. exists 2. simpl. lra.
  - right. exists 2. simpl. lra.
Qed.

(*% ** C15: conjugate symmetry *)

Lemma sign_msgn m : sign_of m = msgn m.
Proof.
  unfold sign_of, msgn. destruct (Z.even m) eqn:E.
  - apply Z.even_spec in E as [k ->]. replace (2 * k) with (k + k) by lia.
    rewrite powerRZ_add by lra. rewrite <- powerRZ_mult. replace (-1 * -1)%R with 1%R by ring.
    apply powerRZ_R1.
  - assert (Z.odd m = true) as Ho by (rewrite <- Z.negb_even, E; reflexivity).
    apply Z.odd_spec in Ho as [k ->]. replace (2 * k + 1) with (k + k + 1) by lia.
    rewrite !powerRZ_add by lra. rewrite <- powerRZ_mult, powerRZ_1.
    replace (-1 * -1)%R with 1%R by ring. rewrite powerRZ_R1. ring.
Qed.

Lemma psid_conj F L N lo J spin spin0 j l m : 1 <= N -> 0 <= j <= J -> 0 <= l < L -> Z.abs m < L ->
  get3 (psid F L N lo J spin spin0) j l (L - 1 - m)
  = Cmult (RtoC (sign_of m)) (Cconj (get3 (psid F L N lo J spin spin0) j l (L - 1 + m))).
Proof.
  intros HN Hj Hl Hm. rewrite sign_msgn.
  replace (L - 1 - m) with (L - 1 + - m) by lia. rewrite !psid_get by lia.
  destruct (_ && _); [|apply injective_projections; simpl; ring].
  rewrite sd_conj by assumption. apply injective_projections; simpl; ring.
Qed.

(*@ C15_conjugate_symmetry *)
Lemma conj_symmetry : forall L N lam J_min J spin spin0 psi phi, 1 <= L -> 1 <= N -> (1 < lam)%R ->
  filters_directional L N J_min lam spin spin0 = Ok (psi, phi) \/
  filters_directional_vectorised L N J_min lam spin spin0 = Ok (psi, phi) \/
  filters_directional_jax L N J_min lam spin spin0 = Ok (psi, phi) ->
  j_max L lam = Ok J ->
  forall j l m, 0 <= j <= J -> 0 <= l < L -> Z.abs m < L ->
  get3 psi j l (L - 1 - m) = Cmult (RtoC (sign_of m)) (Cconj (get3 psi j l (L - 1 + m))).
Proof.
  intros L N lam J_min J spin spin0 psi phi HL HN Hlam E EJ j l m Hj Hl Hm.
  assert (E' : filters_directional L N J_min lam spin spin0 = Ok (psi, phi) \/
               filters_directional_vectorised L N J_min lam spin spin0 = Ok (psi, phi)).
  { destruct E as [E|[E|E]]; auto. right. destruct (Z.eq_dec spin0 0) as [->|Hs].
    - now apply jax_to_vec.
    - rewrite spin_fail_jax in E by assumption. discriminate. }
  destruct E' as [E'|E'].
  - destruct (inv_dir lam L J_min Hlam HL N spin spin0 psi phi HN E') as (J1 & EJ1 & HJ & -> & ->).
    assert (J1 = J) as -> by (eapply same_J; eauto). now apply psid_conj.
  - destruct (inv_dvec lam L J_min Hlam HL N spin spin0 psi phi HN E')
      as (J1 & EJ1 & HJ & -> & -> & ->).
    assert (J1 = J) as -> by (eapply same_J; eauto). now apply psid_conj.
Qed.

(*% for N odd the filters are real, for N even purely imaginary *)
(*@ C15_parity_real_or_imaginary *)
Lemma real_or_imag : forall L N lam J_min J spin spin0 psi phi, 1 <= L -> 1 <= N -> (1 < lam)%R ->
  filters_directional L N J_min lam spin spin0 = Ok (psi, phi) \/
  filters_directional_vectorised L N J_min lam spin spin0 = Ok (psi, phi) \/
  filters_directional_jax L N J_min lam spin spin0 = Ok (psi, phi) ->
  j_max L lam = Ok J ->
  forall j l m, 0 <= j <= J -> 0 <= l < L -> Z.abs m < L ->
  (if Z.odd N then snd (get3 psi j l (L - 1 + m)) else fst (get3 psi j l (L - 1 + m))) = 0%R.
Proof.
  intros L N lam J_min J spin spin0 psi phi HL HN Hlam E EJ j l m Hj Hl Hm.
  assert (E' : filters_directional L N J_min lam spin spin0 = Ok (psi, phi) \/
               filters_directional_vectorised L N J_min lam spin spin0 = Ok (psi, phi)).
  { destruct E as [E|[E|E]]; auto. right. destruct (Z.eq_dec spin0 0) as [->|Hs].
    - now apply jax_to_vec.
    - rewrite spin_fail_jax in E by assumption. discriminate. }
  assert (Hp : forall F lo, (if Z.odd N then snd (get3 (psid F L N lo J spin spin0) j l (L - 1 + m))
     else fst (get3 (psid F L N lo J spin spin0) j l (L - 1 + m))) = 0%R).
  { intros F lo. rewrite psid_get by lia. destruct (_ && _); [|destruct (Z.odd N); reflexivity].
    unfold sd, nu. rewrite Zmod_even, <- Z.negb_even.
    destruct (Z.even N); cbn [negb Z.eqb]; destruct (_ && _); simpl; ring. }
  destruct E' as [E'|E'].
  - destruct (inv_dir lam L J_min Hlam HL N spin spin0 psi phi HN E') as (J1 & EJ1 & HJ & -> & ->).
    assert (J1 = J) as -> by (eapply same_J; eauto). apply Hp.
  - destruct (inv_dvec lam L J_min Hlam HL N spin spin0 psi phi HN E')
      as (J1 & EJ1 & HJ & -> & -> & ->).
    assert (J1 = J) as -> by (eapply same_J; eauto). apply Hp.
Qed.

(*% hypotheses are met by every looped call in range, for instance L = 5, N = 2, spin0 = 1 *)
(*@E C15_example *)
Lemma ex_conj : exists psi phi, filters_directional 5 2 1 2 2 1 = Ok (psi, phi) /\ j_max 5 2 = Ok 3.
Proof.
  destruct j_max_5_2 as (EJ & _).
  destruct (valid_range 5 2 2 3 1 2 1) as (_ & _ & _ & (p & q & E & _) & _); auto; try lia; try lra.
  eauto.
Qed.

(*% ** C16, C17: looped against vectorised *)

(*@ C16_looped_vs_vectorised_axisym *)
Lemma axi_loop_vec : forall L lam J_min J psi phi vpsi vphi k, 1 <= L -> (1 < lam)%R ->
  filters_axisym L J_min lam = Ok (psi, phi) ->
  filters_axisym_vectorised L J_min lam = Ok (vpsi, vphi) ->
  k_lam L lam 300 = Ok k -> j_max L lam = Ok J ->
  phi = vphi /\
  forall j l, 0 <= l < L -> J_min <= j <= J -> (get2 k j l <= get2 k (j + 1) l)%R ->
    get2 psi j l = get2 vpsi j l.
Proof.
  intros L lam J_min J psi phi vpsi vphi k HL Hlam E Ev Ek EJ.
  pose proof (vec_from_k L lam J_min J vpsi vphi k HL Hlam Ev Ek EJ) as Hv.
  pose proof (loop_from_k L lam J_min J psi phi k HL Hlam E Ek EJ) as Hl.
  destruct (inv_axi lam L J_min Hlam HL psi phi E) as (J1 & EJ1 & HJ & -> & ->).
  destruct (inv_vec lam L J_min Hlam HL vpsi vphi Ev) as (J2 & EJ2 & _ & -> & ->).
  split; [reflexivity|]. intros j l Hl' Hj Hk.
  destruct (Hv l Hl') as [_ Hv']. rewrite Hv' by lia.
  destruct (Hl l Hl') as (_ & _ & Hl''). destruct (Hl'' j Hj) as [-> _]; auto.
  rewrite Rmax_right by lra. reflexivity.
Qed.

(*% below J_min the looped rows are zero and the vectorised ones are not: at l = 1 row 0 is 1 *)
(*@ C16_rows_below_J_min_differ *)
Lemma rows_below : forall L lam J_min J psi phi vpsi vphi, 2 <= L -> (1 < lam)%R -> 1 <= J_min ->
  filters_axisym L J_min lam = Ok (psi, phi) ->
  filters_axisym_vectorised L J_min lam = Ok (vpsi, vphi) -> j_max L lam = Ok J ->
  get2 psi 0 1 = 0%R /\ get2 vpsi 0 1 = 1%R.
Proof.
  intros L lam J_min J psi phi vpsi vphi HL Hlam HJm E Ev EJ.
  destruct (inv_axi lam L J_min Hlam ltac:(lia) psi phi E) as (J1 & EJ1 & HJ & -> & ->).
  destruct (inv_vec lam L J_min Hlam ltac:(lia) vpsi vphi Ev) as (J2 & EJ2 & HJ2 & -> & ->).
  unfold psi_loop, psi_vec. rewrite !get2_mk by lia. replace (J_min <=? 0) with false by zb.
  split; [reflexivity|]. rewrite kdiff_high by (auto using HQ; simpl; lra).
  rewrite kv_one by (auto using HQ; simpl; lra). rewrite Rmax_right by lra. apply sqrt_1.
Qed.

(*@E C16_example *)
Lemma ex_loop_vec : exists a b c d, filters_axisym 5 1 2 = Ok (a, b) /\
  filters_axisym_vectorised 5 1 2 = Ok (c, d) /\ b = d /\ get2 a 0 1 = 0%R /\ get2 c 0 1 = 1%R.
Proof.
  destruct j_max_5_2 as (EJ & _).
  destruct (valid_range 5 1 2 3 1 0 0) as ((a & b & E & _) & (c & d & E' & _) & _); auto; try lia; try lra.
  exists a, b, c, d. split; auto. split; auto.
  pose proof (k_lam_ok 2 ltac:(lra) 5 300 3 ltac:(lia) ltac:(lia) EJ) as Ek.
  split; [apply (axi_loop_vec 5 2 1 3 a b c d _ ltac:(lia) ltac:(lra) E E' Ek EJ)|].
  apply (rows_below 5 2 1 3 a b c d); auto; try lia; lra.
Qed.

(*@ C17_looped_vs_vectorised_directional *)
Lemma dir_loop_vec : forall L N lam J_min J spin psi phi vpsi vphi k, 1 <= L -> 1 <= N -> (1 < lam)%R ->
  filters_directional L N J_min lam spin 0 = Ok (psi, phi) ->
  filters_directional_vectorised L N J_min lam spin 0 = Ok (vpsi, vphi) ->
  k_lam L lam 300 = Ok k -> j_max L lam = Ok J ->
  phi = vphi /\
  forall j l m, 0 <= l < L -> Z.abs m < L -> J_min <= j <= J ->
    (get2 k j l <= get2 k (j + 1) l)%R ->
    get3 psi j l (L - 1 + m) = get3 vpsi j l (L - 1 + m).
Proof.
  intros L N lam J_min J spin psi phi vpsi vphi k HL HN Hlam E Ev Ek EJ.
  destruct (inv_dir lam L J_min Hlam HL N spin 0 psi phi HN E) as (J1 & EJ1 & HJ & -> & ->).
  destruct (inv_dvec lam L J_min Hlam HL N spin 0 vpsi vphi HN Ev) as (J2 & EJ2 & HJ2 & _ & -> & ->).
  destruct (inv_k lam L Hlam HL k Ek) as (J3 & EJ3 & _ & ->).
  assert (J1 = J) as -> by (eapply same_J; eauto). assert (J2 = J) as -> by (eapply same_J; eauto).
  assert (J3 = J) as -> by (eapply same_J; eauto).
  split; [reflexivity|]. intros j l m Hl Hm Hj Hk. rewrite !get2_mk in Hk by lia.
  rewrite !psid_get by lia. replace (J_min <=? j) with true by zb. replace (0 <=? j) with true by zb.
  cbn [andb]. destruct (_ <=? _); auto. unfold Fvec.
  rewrite tv_ok by (auto using HQ; try lia; unfold kdiff; lra).
  rewrite Rmax_right by (unfold kdiff; lra). reflexivity.
Qed.

(*@E C17_example *)
Lemma ex_dir_loop_vec : exists a b c d, filters_directional 5 2 1 2 1 0 = Ok (a, b) /\
  filters_directional_vectorised 5 2 1 2 1 0 = Ok (c, d) /\ b = d.
Proof.
  destruct j_max_5_2 as (EJ & _).
  destruct (valid_range 5 2 2 3 1 1 0) as (_ & _ & _ & (a & b & E & _) & (c & d & E' & _) & _);
    auto; try lia; try lra.
  exists a, b, c, d. split; auto. split; auto.
  pose proof (k_lam_ok 2 ltac:(lra) 5 300 3 ltac:(lia) ltac:(lia) EJ) as Ek.
  apply (dir_loop_vec 5 2 2 1 3 1 a b c d _ ltac:(lia) ltac:(lia) ltac:(lra) E E' Ek EJ).
Qed.

(*% ** C18: JAX filters equal the numpy vectorised filters *)

(*@ C18_jax_equals_numpy *)
Lemma jax_eq : forall L N lam J_min spin n, 1 <= L -> 1 <= N -> (1 < lam)%R ->
  k_lam_jax L lam n = k_lam L lam n /\
  filters_axisym_jax L J_min lam = filters_axisym_vectorised L J_min lam /\
  (int64_powers L N ->
   tiling_direction_jax L N = tiling_direction L N /\
   filters_directional_jax L N J_min lam spin 0 = filters_directional_vectorised L N J_min lam spin 0).
Proof.
  intros L N lam J_min spin n HL HN Hlam. split; [reflexivity|]. split; [|intros H64; split].
  - destruct (j_max_spec L lam HL Hlam) as (J & EJ & _). destruct (range_dec J_min J) as [H|H].
    + rewrite (filters_axisym_vec_ok lam Hlam L J_min J HL EJ H).
      now rewrite (filters_axisym_jax_ok lam Hlam L J_min J HL EJ H).
    + destruct (kcheck lam L J_min J HL EJ H) as (_ & -> & ->). reflexivity.
  - unfold tiling_direction, tiling_direction_jax.
    rewrite tiling_direction_with_ok, tiling_direction_jax_with_ok by (auto; apply loggamma_ok).
    reflexivity.
  - apply jax_is_vec; auto.
Qed.

(*% the directional component does not depend on the log-gamma implementation away from the
   positive integers, although the JAX version evaluates it there *)
(*@ C18_directional_component_any_loggamma *)
Lemma any_loggamma : forall (lg : R -> R) L N, 1 <= L -> 1 <= N -> int64_powers L N ->
  (forall n : nat, lg (INR n + 1)%R = ln (INR (fact n))) ->
  tiling_direction_with lg L N = tiling_direction L N /\
  tiling_direction_jax_with lg L N = tiling_direction L N.
Proof.
  intros lg L N HL HN H64 Hlg. unfold tiling_direction.
  rewrite !tiling_direction_with_ok, tiling_direction_jax_with_ok by (auto; apply loggamma_ok).
  auto.
Qed.

(*@E C18_example *)
Lemma ex_jax : exists p, filters_directional_jax 5 2 1 2 1 0 = Ok p /\
  filters_directional_vectorised 5 2 1 2 1 0 = Ok p.
Proof.
  destruct j_max_5_2 as (EJ & _).
  destruct (valid_range 5 2 2 3 1 1 0) as (_ & _ & _ & _ & (c & d & E' & _) & _);
    auto; try lia; try lra.
  exists (c, d). rewrite jax_is_vec by (auto; try lia; try lra; left; lia). auto.
Qed.

(*% ** C83: the JAX directional filters raise for 64 or more directions *)

(*@ C83_jax_directions_overflow *)
Lemma jax_overflow : forall L N lam J J_min spin, 1 <= L -> (1 < lam)%R ->
  j_max L lam = Ok J -> 0 <= J_min < J -> 64 <= N -> 65 <= L \/ (L = 64 /\ Z.Even N) ->
  filters_directional_jax L N J_min lam spin 0 = Err OverflowError /\
  (exists p, filters_directional L N J_min lam spin 0 = Ok p) /\
  (exists p, filters_directional_vectorised L N J_min lam spin 0 = Ok p).
Proof.
  intros L N lam J J_min spin HL Hlam EJ HJ HN HLN.
  destruct (valid_range L N lam J J_min spin 0 HL ltac:(lia) Hlam EJ HJ) as (_ & _ & _ & (a & b & E & _) & (c & d & E' & _) & _).
  split; [|split; eauto]. apply (filters_directional_jax_overflow lam Hlam L N J_min J spin HL); auto.
  intros [?|[?|[? [k Hk]]]]; try lia. destruct HLN as [?|[_ [k' Hk']]]; lia.
Qed.

(*@ C83_jax_directions_iff *)
Lemma jax_accepts : forall L N lam J J_min spin, 1 <= L -> 1 <= N -> (1 < lam)%R ->
  j_max L lam = Ok J -> 0 <= J_min < J ->
  ((exists p, filters_directional_jax L N J_min lam spin 0 = Ok p) <-> int64_powers L N).
Proof.
  intros L N lam J J_min spin HL HN Hlam EJ HJ. split.
  - intros [p E]. destruct (int64_powers_dec L N) as [H|H]; [exact H|].
    rewrite (filters_directional_jax_overflow lam Hlam L N J_min J spin HL H EJ HJ) in E. discriminate.
  - intros H. rewrite (filters_directional_jax_ok lam Hlam L N J_min J spin HL HN H EJ HJ). eauto.
Qed.

(*% whatever the JAX version returns, the numpy version returns too *)
(*@ C83_jax_result_is_numpy_result *)
Lemma jax_result : forall L N lam J_min spin spin0 p, 1 <= L -> 1 <= N -> (1 < lam)%R ->
  filters_directional_jax L N J_min lam spin spin0 = Ok p -> filters_directional_vectorised L N J_min lam spin spin0 = Ok p.
Proof. intros. apply jax_to_vec; assumption. Qed.

(*% 64 directions at L = 128 (J = 7) overflow, 63 do not *)
(*@E C83_example *)
Lemma ex_c83 : j_max 128 2 = Ok 7 /\ filters_directional_jax 128 64 0 2 0 0 = Err OverflowError /\
  (exists p, filters_directional_vectorised 128 64 0 2 0 0 = Ok p) /\
  (exists p, filters_directional_jax 128 63 0 2 0 0 = Ok p).
Proof.
  assert (EJ : j_max 128 2 = Ok 7).
  { apply j_max_iff; [lia|lra|]. simpl. lra. }
  split; [exact EJ|].
  destruct (jax_overflow 128 64 2 7 0 0) as (A & _ & B); auto; try lia; try lra.
  split; [exact A|]. split; [exact B|].
  apply (jax_accepts 128 63 2 7 0 0); auto; try lia; try lra. left; lia.
Qed.

(*% ** C19: spin normalisation *)

Lemma snorm_ratio l s : snorm l s = sqrt (spin_ratio l s). Proof. reflexivity. Qed.

(*@ C19_spin_normalisation *)
Lemma spin_norm_value : forall l s, Z.abs s <= l ->
  spin_normalization l s = Ok (sqrt (spin_ratio l s)) /\ (0 < sqrt (spin_ratio l s))%R.
Proof. intros l s H. split; [now apply spin_normalization_ok|apply snorm_pos]. Qed.

(*@ C19_spin_normalisation_inverse *)
Lemma spin_norm_inv : forall l s v w, Z.abs s <= l ->
  spin_normalization l s = Ok v -> spin_normalization l (- s) = Ok w -> (v * w = 1)%R.
Proof.
  intros l s v w H Ev Ew. rewrite spin_normalization_ok in Ev, Ew by lia.
  apply Ok_inj in Ev, Ew. subst. unfold snorm.
  rewrite <- sqrt_mult by (left; apply ratio_pos).
  replace (fct (l + s) / fct (l - s) * (fct (l + - s) / fct (l - - s)))%R with 1%R; [apply sqrt_1|].
  replace (l + - s) with (l - s) by lia. replace (l - - s) with (l + s) by lia.
  pose proof (fct_pos (l + s)). pose proof (fct_pos (l - s)). field. lra.
Qed.

(*@E C19_example *)
Lemma ex_spin : spin_normalization 3 2 = Ok (sqrt 120) /\ spin_normalization 3 (-2) = Ok (sqrt (1 / 120)).
Proof.
  rewrite !spin_normalization_ok by lia. unfold snorm, fct. simpl.
  split; do 2 f_equal; field.
Qed.

(*% ** C20: spin-lowered filters *)

(*@ C20_array_versions_fail_for_spin0 *)
Lemma spin0_fail : forall L N lam J_min spin spin0, spin0 <> 0 ->
  filters_directional_vectorised L N J_min lam spin spin0 = Err ValueError /\
  filters_directional_jax L N J_min lam spin spin0 = Err TypeError.
Proof. intros. split; [now apply spin_fail_vec | now apply spin_fail_jax]. Qed.

(*@ C20_looped_spin0_scales *)
Lemma spin0_looped : forall L N lam J_min J spin spin0, 1 <= L -> 1 <= N -> (1 < lam)%R ->
  j_max L lam = Ok J -> 0 <= J_min < J ->
  exists psi phi psi0 phi0,
    filters_directional L N J_min lam spin spin0 = Ok (psi, phi) /\
    filters_directional L N J_min lam 0 0 = Ok (psi0, phi0) /\
    forall l, Z.max (Z.abs spin) (Z.abs spin0) <= l < L ->
      get1 phi l = (sign_of spin0 * sqrt (spin_ratio l spin0) * get1 phi0 l)%R /\
      forall j m, 0 <= j <= J -> Z.abs m < L ->
        get3 psi j l (L - 1 + m)
        = Cmult (RtoC (sign_of spin0 * sqrt (spin_ratio l spin0))) (get3 psi0 j l (L - 1 + m)).
Proof.
  intros L N lam J_min J spin spin0 HL HN Hlam EJ HJ.
  do 4 eexists. split; [apply (filters_directional_ok lam Hlam L N J_min J); auto|].
  split; [apply (filters_directional_ok lam Hlam L N J_min J); auto|].
  intros l Hl. fold (el_min spin spin0) in Hl.
  assert (Hl0 : 0 <= l) by (unfold el_min in Hl; lia).
  assert (Hw : wsp spin0 l = (sign_of spin0 * sqrt (spin_ratio l spin0))%R).
  { unfold wsp. destruct (Z.eqb_spec spin0 0) as [->|].
    - rewrite ratio_0, sqrt_1 by lia. unfold sign_of. simpl. ring.
    - rewrite sign_msgn, snorm_ratio. ring. }
  split.
  - unfold phid. rewrite !get1_mk by lia. replace (el_min spin spin0 <=? l) with true by zb.
    replace (el_min 0 0 <=? l) with true by (unfold el_min; zb). rewrite Hw. unfold wsp. simpl. ring.
  - intros j m Hj Hm. rewrite !psid_get by lia. replace (el_min spin spin0 <=? l) with true by zb.
    replace (el_min 0 0 <=? l) with true by (unfold el_min; zb). rewrite Hw. unfold wsp. simpl Z.eqb.
    destruct (J_min <=? j); cbn [andb]; apply injective_projections; simpl; ring.
Qed.

(*@E C20_example *)
Lemma ex_spin0 : filters_directional_vectorised 5 2 1 2 0 2 = Err ValueError /\
  filters_directional_jax 5 2 1 2 0 2 = Err TypeError /\
  exists p, filters_directional 5 2 1 2 0 2 = Ok p.
Proof.
  split; [now apply spin_fail_vec|]. split; [now apply spin_fail_jax|].
  destruct j_max_5_2 as (EJ & _).
  destruct (valid_range 5 2 2 3 1 0 2) as (_ & _ & _ & (a & b & E & _) & _); auto; try lia; try lra.
  eauto.
Qed.

(*% ** C38: scaling functions nest *)

(*@ C38_scaling_functions_nest *)
Lemma scal_nest : forall L lam J_min psi phi psi0 phi0 k, 1 <= L -> (1 < lam)%R ->
  filters_axisym_vectorised L J_min lam = Ok (psi, phi) ->
  filters_axisym_vectorised L 0 lam = Ok (psi0, phi0) -> k_lam L lam 300 = Ok k ->
  psi = psi0 /\
  forall l, 0 <= l < L ->
    (forall j, 0 <= j < J_min -> (get2 k j l <= get2 k (j + 1) l)%R) ->
    (get1 phi l ^ 2 = get1 phi0 l ^ 2 + sumZ 0 J_min (fun j => get2 psi0 j l ^ 2))%R.
Proof.
  intros L lam J_min psi phi psi0 phi0 k HL Hlam E E0 Ek.
  destruct (inv_vec lam L J_min Hlam HL psi phi E) as (J & EJ & HJ & -> & ->).
  destruct (inv_vec lam L 0 Hlam HL psi0 phi0 E0) as (J1 & EJ1 & HJ1 & -> & ->).
  destruct (inv_k lam L Hlam HL k Ek) as (J3 & EJ3 & _ & ->).
  assert (J1 = J) as -> by (eapply same_J; eauto). assert (J3 = J) as -> by (eapply same_J; eauto).
  split; [reflexivity|]. intros l Hl Hk. unfold phi_ax. rewrite !get1_mk by lia.
  rewrite !pow2_sqrt by (apply kv_nonneg; auto using HQ). rewrite sumZ_zrsum, Z.sub_0_r.
  rewrite (zrsum_ext _ _ (fun i => kv lam Q (i + 1) l - kv lam Q i l)%R).
  2:{ intros i Hi. unfold psi_vec. rewrite Z.add_0_l, get2_mk by lia.
      specialize (Hk i ltac:(lia)). rewrite !get2_mk in Hk by lia.
      rewrite pow2_sqrt by apply Rmax_l. rewrite Rmax_right; [reflexivity|]. unfold kdiff. lra. }
  rewrite (zrsum_tele _ (fun i => kv lam Q i l)) by lia. ring.
Qed.

(*@ C38_rows_do_not_depend_on_J_min *)
Lemma rows_indep : forall L lam J_min J_min' J psi phi psi' phi', 1 <= L -> (1 < lam)%R ->
  filters_axisym L J_min lam = Ok (psi, phi) -> filters_axisym L J_min' lam = Ok (psi', phi') ->
  j_max L lam = Ok J ->
  forall j l, 0 <= l < L -> J_min <= j <= J -> J_min' <= j -> get2 psi j l = get2 psi' j l.
Proof.
  intros L lam J_min J_min' J psi phi psi' phi' HL Hlam E E' EJ j l Hl Hj Hj'.
  destruct (inv_axi lam L J_min Hlam HL psi phi E) as (J1 & EJ1 & HJ & -> & ->).
  destruct (inv_axi lam L J_min' Hlam HL psi' phi' E') as (J2 & EJ2 & HJ2 & -> & ->).
  assert (J1 = J) as -> by (eapply same_J; eauto). assert (J2 = J) as -> by (eapply same_J; eauto).
  unfold psi_loop. rewrite !get2_mk by lia.
  replace (J_min <=? j) with true by zb. replace (J_min' <=? j) with true by zb. reflexivity.
Qed.

(*@E C38_example *)
Lemma ex_nest : exists p q p0 q0, filters_axisym_vectorised 5 2 2 = Ok (p, q) /\
  filters_axisym_vectorised 5 0 2 = Ok (p0, q0) /\
  (get1 q 3 ^ 2 = get1 q0 3 ^ 2 + sumZ 0 2 (fun j => get2 p0 j 3 ^ 2))%R.
Proof.
  destruct j_max_5_2 as (EJ & _).
  destruct (valid_range 5 1 2 3 2 0 0) as (_ & (a & b & E & _) & _); auto; try lia; try lra.
  destruct (valid_range 5 1 2 3 0 0 0) as (_ & (c & d & E' & _) & _); auto; try lia; try lra.
  exists a, b, c, d. split; auto. split; auto.
  pose proof (k_lam_ok 2 ltac:(lra) 5 300 3 ltac:(lia) ltac:(lia) EJ) as Ek.
  apply (scal_nest 5 2 2 a b c d _ ltac:(lia) ltac:(lra) E E' Ek); [lia|].
  intros j Hj. rewrite !get2_mk by lia.
  assert (j = 0 \/ j = 1) as [->| ->] by lia.
  - rewrite !kv_zero by (simpl; lra). lra.
  - rewrite (kv_zero 2 ltac:(lra) 300 1) by (simpl; lra). apply kv_nonneg; [lra|lia].
Qed.

(*% ** C39: filters do not depend on the band-limit *)

(*@ C39_band_limit_independence_looped *)
Lemma L_indep : forall L L' N lam J_min J J' spin spin0 psi phi psi' phi',
  1 <= L <= L' -> 1 <= N -> (1 < lam)%R ->
  filters_directional L N J_min lam spin spin0 = Ok (psi, phi) ->
  filters_directional L' N J_min lam spin spin0 = Ok (psi', phi') ->
  j_max L lam = Ok J -> j_max L' lam = Ok J' ->
  forall l, 0 <= l < L ->
    get1 phi l = get1 phi' l /\
    forall m, Z.abs m < L ->
      (forall j, 0 <= j <= J -> get3 psi j l (L - 1 + m) = get3 psi' j l (L' - 1 + m)) /\
      (forall j, J < j <= J' -> get3 psi' j l (L' - 1 + m) = RtoC 0).
Proof.
  intros L L' N lam J_min J J' spin spin0 psi phi psi' phi' HL HN Hlam E E' EJ EJ' l Hl.
  destruct (inv_dir lam L J_min Hlam ltac:(lia) N spin spin0 psi phi HN E) as (J1 & EJ1 & HJ & -> & ->).
  destruct (inv_dir lam L' J_min Hlam ltac:(lia) N spin spin0 psi' phi' HN E')
    as (J2 & EJ2 & HJ2 & -> & ->).
  assert (J1 = J) as -> by (eapply same_J; eauto). assert (J2 = J') as -> by (eapply same_J; eauto).
  assert (HJJ : J <= J').
  { pose proof (proj1 (j_max_iff L lam J ltac:(lia) Hlam) EJ) as [B1 B2].
    pose proof (J_covers L' lam J' L ltac:(lia) Hlam EJ' ltac:(lia)) as B3.
    assert (J - 1 < J') by (apply (pw_lt_inv lam); auto; lra). lia. }
  split; [unfold phid; now rewrite !get1_mk by lia|].
  intros m Hm. split.
  - intros j Hj. now rewrite !psid_get by lia.
  - intros j Hj. destruct (Ceq_dec (get3 (psid (tv lam Q) L' N J_min J' spin spin0) j l (L' - 1 + m)) (RtoC 0))
      as [|Hne]; auto. exfalso.
    apply (psid_supp lam) in Hne; try lia; auto; [|now left].
    destruct Hne as (_ & _ & _ & _ & _ & [B _] & _).
    pose proof (J_covers L lam J l ltac:(lia) Hlam EJ ltac:(lia)).
    assert (powerRZ lam J <= powerRZ lam (j - 1))%R by (apply pw_le; auto; lia). lra.
Qed.

(*@ C39_band_limit_independence_vectorised *)
Lemma L_indep_vec : forall L L' N lam J_min J J' spin spin0 psi phi psi' phi',
  1 <= L <= L' -> 1 <= N -> (1 < lam)%R ->
  filters_directional_vectorised L N J_min lam spin spin0 = Ok (psi, phi) ->
  filters_directional_vectorised L' N J_min lam spin spin0 = Ok (psi', phi') ->
  j_max L lam = Ok J -> j_max L' lam = Ok J' ->
  forall l, 0 <= l < L ->
    get1 phi l = get1 phi' l /\
    forall m, Z.abs m < L ->
      (forall j, 0 <= j <= J -> get3 psi j l (L - 1 + m) = get3 psi' j l (L' - 1 + m)) /\
      (forall j, J < j <= J' -> get3 psi' j l (L' - 1 + m) = RtoC 0).
Proof.
  intros L L' N lam J_min J J' spin spin0 psi phi psi' phi' HL HN Hlam E E' EJ EJ' l Hl.
  destruct (inv_dvec lam L J_min Hlam ltac:(lia) N spin spin0 psi phi HN E)
    as (J1 & EJ1 & HJ & -> & -> & ->).
  destruct (inv_dvec lam L' J_min Hlam ltac:(lia) N spin 0 psi' phi' HN E')
    as (J2 & EJ2 & HJ2 & _ & -> & ->).
  assert (J1 = J) as -> by (eapply same_J; eauto). assert (J2 = J') as -> by (eapply same_J; eauto).
  assert (HJJ : J <= J').
  { pose proof (proj1 (j_max_iff L lam J ltac:(lia) Hlam) EJ) as [B1 B2].
    pose proof (J_covers L' lam J' L ltac:(lia) Hlam EJ' ltac:(lia)) as B3.
    assert (J - 1 < J') by (apply (pw_lt_inv lam); auto; lra). lia. }
  split; [unfold phid; now rewrite !get1_mk by lia|].
  intros m Hm. split.
  - intros j Hj. now rewrite !psid_get by lia.
  - intros j Hj. destruct (Ceq_dec (get3 (psid (Fvec lam) L' N 0 J' spin 0) j l (L' - 1 + m)) (RtoC 0))
      as [|Hne]; auto. exfalso.
    apply (psid_supp lam) in Hne; try lia; auto; [|now right].
    destruct Hne as (_ & _ & _ & _ & _ & [B _] & _).
    pose proof (J_covers L lam J l ltac:(lia) Hlam EJ ltac:(lia)).
    assert (powerRZ lam J <= powerRZ lam (j - 1))%R by (apply pw_le; auto; lia). lra.
Qed.

(*@E C39_example *)
Lemma ex_indep : (exists p, filters_directional 5 2 1 2 0 0 = Ok p) /\
  (exists p, filters_directional 9 2 1 2 0 0 = Ok p) /\ j_max 5 2 = Ok 3 /\ j_max 9 2 = Ok 4.
Proof.
  destruct j_max_5_2 as (EJ & _).
  assert (EJ' : j_max 9 2 = Ok 4) by (apply j_max_iff; [lia|lra|simpl; lra]).
  destruct (valid_range 5 2 2 3 1 0 0) as (_ & _ & _ & (a & b & E & _) & _); auto; try lia; try lra.
  destruct (valid_range 9 2 2 4 1 0 0) as (_ & _ & _ & (c & d & E' & _) & _); auto; try lia; try lra.
  exact (conj (ex_intro _ _ E) (conj (ex_intro _ _ E') (conj EJ EJ'))).
Qed.

(*% ** C40: axisymmetric case N = 1 *)

Lemma sd_1 l m : sd 1 l m = if (1 <=? l) && (m =? 0) then RtoC 1 else RtoC 0.
Proof.
  unfold sd. destruct (Z.leb_spec 1 l) as [Hl|Hl]; cbn [andb]; [|reflexivity].
  destruct (Z.eqb_spec m 0) as [->|Hm].
  - replace (Z.abs 0 <=? l) with true by zb. change (dmask 1 0) with true. cbn [andb].
    assert (Hg : gam 1 l = 0).
    { pose proof (gam_range 1 l ltac:(lia) Hl). lia. }
    unfold dsq. rewrite Hg. change ((0 - 0) / 2) with 0. simpl.
    replace (1 / 1)%R with 1%R by lra. rewrite sqrt_1. change (nu 1) with (RtoC 1).
    apply injective_projections; simpl; ring.
  - destruct (_ && _) eqn:E; auto. apply andb_true_iff in E as [_ E]. unfold dmask in E.
    apply andb_true_iff in E as [E _]. apply Z.ltb_lt in E. lia.
Qed.

(*@ C40_axisymmetric_case *)
Lemma axisym_case : forall L lam J_min J spin psi phi apsi aphi, 1 <= L -> (1 < lam)%R ->
  (filters_directional L 1 J_min lam spin 0 = Ok (psi, phi) /\
   filters_axisym L J_min lam = Ok (apsi, aphi)) \/
  (filters_directional_vectorised L 1 J_min lam spin 0 = Ok (psi, phi) /\
   filters_axisym_vectorised L J_min lam = Ok (apsi, aphi)) ->
  j_max L lam = Ok J ->
  forall l, Z.abs spin <= l < L ->
    get1 phi l = (sqrt ((2 * IZR l + 1) / (4 * PI)) * get1 aphi l)%R /\
    forall j, 0 <= j <= J ->
      get3 psi j l (L - 1) = RtoC (sqrt ((2 * IZR l + 1) / (8 * PI ^ 2)) * get2 apsi j l) /\
      forall m, Z.abs m < L -> m <> 0 -> get3 psi j l (L - 1 + m) = RtoC 0.
Proof.
  intros L lam J_min J spin psi phi apsi aphi HL Hlam E EJ l Hl.
  assert (Ec : cpsi l = sqrt ((2 * IZR l + 1) / (8 * PI ^ 2))).
  { unfold cpsi. rewrite plus_IZR, mult_IZR. f_equal. f_equal. simpl. ring. }
  assert (Eh : cphi l = sqrt ((2 * IZR l + 1) / (4 * PI))).
  { unfold cphi. now rewrite plus_IZR, mult_IZR. }
  assert (G : forall F lo f2, is_F lam F -> 0 <= lo ->
    (forall j, 0 <= j <= J -> f2 j l = if lo <=? j then F j l else 0%R) ->
    forall j, 0 <= j <= J ->
      get3 (psid F L 1 lo J spin 0) j l (L - 1) = RtoC (sqrt ((2 * IZR l + 1) / (8 * PI ^ 2)) * f2 j l) /\
      forall m, Z.abs m < L -> m <> 0 -> get3 (psid F L 1 lo J spin 0) j l (L - 1 + m) = RtoC 0).
  { intros F lo f2 HF Hlo Hf j Hj.
    replace (get3 (psid F L 1 lo J spin 0) j l (L - 1))
      with (get3 (psid F L 1 lo J spin 0) j l (L - 1 + 0)) by (f_equal; lia).
    rewrite psid_get, Hf, <- Ec by lia.
    replace (el_min spin 0 <=? l) with true by (unfold el_min; zb). rewrite andb_true_r. split.
    - destruct (lo <=? j); [|apply injective_projections; simpl; ring].
      rewrite sd_1. change (0 =? 0) with true. rewrite andb_true_r.
      unfold wsp. change (0 =? 0) with true. cbv iota.
      destruct (Z.leb_spec 1 l).
      + apply injective_projections; simpl; ring.
      + assert (l = 0) by lia. subst l.
        assert (F j 0 = 0%R) as ->.
        { destruct (Req_dec (F j 0) 0) as [|Hne]; auto. apply (F_supp lam F j 0) in Hne; auto; lia. }
        apply injective_projections; simpl; ring.
    - intros m Hm Hm0. rewrite psid_get, sd_1 by lia. replace (m =? 0) with false by zb.
      rewrite andb_false_r. destruct (_ && _); auto.
      apply injective_projections; simpl; ring. }
  destruct E as [[E Ea]|[E Ea]].
  - destruct (inv_dir lam L J_min Hlam HL 1 spin 0 psi phi ltac:(lia) E) as (J1 & EJ1 & HJ & -> & ->).
    destruct (inv_axi lam L J_min Hlam HL apsi aphi Ea) as (J2 & EJ2 & _ & -> & ->).
    assert (J1 = J) as -> by (eapply same_J; eauto). assert (J2 = J) as -> by (eapply same_J; eauto).
    split.
    + unfold phid, phi_ax. rewrite !get1_mk by lia. replace (el_min spin 0 <=? l) with true by (unfold el_min; zb).
      unfold wsp. simpl. rewrite Eh. ring.
    + apply (G (tv lam Q) J_min (get2 (psi_loop lam L J_min J))); [now left|lia|].
      intros j Hj. unfold psi_loop. now rewrite get2_mk by lia.
  - destruct (inv_dvec lam L J_min Hlam HL 1 spin 0 psi phi ltac:(lia) E) as (J1 & EJ1 & HJ & _ & -> & ->).
    destruct (inv_vec lam L J_min Hlam HL apsi aphi Ea) as (J2 & EJ2 & _ & -> & ->).
    assert (J1 = J) as -> by (eapply same_J; eauto). assert (J2 = J) as -> by (eapply same_J; eauto).
    split.
    + unfold phid, phi_ax. rewrite !get1_mk by lia. replace (el_min spin 0 <=? l) with true by (unfold el_min; zb).
      unfold wsp. simpl. rewrite Eh. ring.
    + apply (G (Fvec lam) 0 (get2 (psi_vec lam L J))); [now right|lia|].
      intros j Hj. unfold psi_vec. rewrite get2_mk by lia. replace (0 <=? j) with true by zb. reflexivity.
Qed.

(*@E C40_example *)
Lemma ex_axisym_case : exists p q a b, filters_directional 5 1 1 2 0 0 = Ok (p, q) /\
  filters_axisym 5 1 2 = Ok (a, b).
Proof.
  destruct j_max_5_2 as (EJ & _).
  destruct (valid_range 5 1 2 3 1 0 0) as ((a & b & E & _) & _ & _ & (c & d & E' & _) & _);
    auto; try lia; try lra.
  exists c, d, a, b. auto.
Qed.

(*% ** C47: vectorised quadrature equals looped quadrature *)

(*@ C47_jax_quadrature *)
Lemma jax_quad : forall lam a b n, (1 < lam)%R -> 1 <= n -> (1 / lam <= a)%R -> (a <= b)%R -> (b <= 1)%R ->
  part_scaling_fn a b n lam = Ok (part_scaling_fn_jax a b n lam).
Proof.
  intros lam a b n Hlam Hn Ha Hab Hb. rewrite (part_scaling_ok lam Hlam a b n Ha Hab Hb Hn). f_equal.
  unfold quadab, part_scaling_fn_jax. apply zrsum_ext. intros i Hi. cbv zeta. unfold not_end.
  assert (G : forall t, gint lam t
     = (exp (-2 / (1 - ((t - 1 / lam) * (2 * lam / (lam - 1)) - 1)²)) / t)%R).
  { intros t. unfold gint, sarg. now rewrite Rsqr_pow2. }
  destruct (reqb (a + IZR i * ((b - a) / IZR n)) (1 / lam)),
    (reqb (a + IZR i * ((b - a) / IZR n)) 1); cbn [orb negb andb]; try (unfold Rdiv; ring).
  destruct (reqb (a + IZR (i + 1) * ((b - a) / IZR n)) (1 / lam)),
    (reqb (a + IZR (i + 1) * ((b - a) / IZR n)) 1); cbn [orb negb andb]; try (unfold Rdiv; ring).
  rewrite !G. reflexivity.
Qed.

(*@E C47_example *)
Lemma ex_jax_quad : part_scaling_fn (1 / 2) (3 / 4) 10 2 = Ok (part_scaling_fn_jax (1 / 2) (3 / 4) 10 2).
Proof. apply jax_quad; try lra. lia. Qed.
