(** * Proofs about samples.py *)

From Coq Require Import ZArith Reals List Bool Lia Lra.
From Coquelicot Require Import Complex.
From Flocq Require Import Core.Raux.
From Verif Require Import Py PyFacts ModelSamples.
Import ListNotations.
Open Scope Z_scope.

(** ** Integer powers of lam *)

Lemma pw_exp lam z : (0 < lam)%R -> powerRZ lam z = exp (IZR z * ln lam).
Proof. intros. now rewrite powerRZ_Rpower. Qed.
Lemma pw_pos lam z : (0 < lam)%R -> (0 < powerRZ lam z)%R.
Proof. intros. rewrite pw_exp by assumption. apply exp_pos. Qed.
Lemma ln_pos lam : (1 < lam)%R -> (0 < ln lam)%R.
Proof. intros. rewrite <- ln_1. apply ln_increasing; lra. Qed.
Lemma pw_lt lam a b : (1 < lam)%R -> a < b -> (powerRZ lam a < powerRZ lam b)%R.
Proof.
  intros H Hab. rewrite !pw_exp by lra. apply exp_increasing.
  apply Rmult_lt_compat_r; [now apply ln_pos | now apply IZR_lt].
Qed.
Lemma pw_le lam a b : (1 < lam)%R -> a <= b -> (powerRZ lam a <= powerRZ lam b)%R.
Proof.
  intros H Hab. destruct (Z.eq_dec a b) as [->|]; [lra|].
  left. apply pw_lt; auto; lia.
Qed.
Lemma pw_lt_inv lam a b : (1 < lam)%R -> (powerRZ lam a < powerRZ lam b)%R -> a < b.
Proof.
  intros H Hab. destruct (Z_lt_le_dec a b); auto.
  apply (pw_le lam) in l; auto. lra.
Qed.
Lemma pw_0 lam : powerRZ lam 0 = 1%R. Proof. reflexivity. Qed.
Lemma pw_1 lam : powerRZ lam 1 = lam. Proof. apply powerRZ_1. Qed.
Lemma pw_ge1 lam j : (1 < lam)%R -> 0 <= j -> (1 <= powerRZ lam j)%R.
Proof. intros. rewrite <- (pw_0 lam). now apply pw_le. Qed.
Lemma pw_succ lam j : (0 < lam)%R -> powerRZ lam (j + 1) = (lam * powerRZ lam j)%R.
Proof. intros. rewrite powerRZ_add by lra. rewrite powerRZ_1. ring. Qed.
Lemma pw_pred lam j : (0 < lam)%R -> powerRZ lam (j - 1) = (powerRZ lam j / lam)%R.
Proof.
  intros. replace j with (j - 1 + 1) at 2 by lia. rewrite pw_succ by assumption. field. lra.
Qed.

Lemma pypow_ok lam j : (0 < lam)%R -> pypow lam j = Ok (powerRZ lam j).
Proof. intros. unfold pypow. rewrite reqb_false by lra. reflexivity. Qed.

(** ** j_max *)

Lemma np_log_pos x : (0 < x)%R -> np_log x = Fin (ln x).
Proof. intros. unfold np_log. now rewrite rltb_true. Qed.

Lemma IZR_ge1 L : 1 <= L -> (1 <= IZR L)%R.
Proof. intros. now apply (IZR_le 1). Qed.

Lemma j_max_ok L lam : 1 <= L -> (1 < lam)%R ->
  j_max L lam = Ok (rceil (ln (IZR L) / ln lam)).
Proof.
  intros HL Hlam. pose proof (IZR_ge1 L HL). pose proof (ln_pos lam Hlam).
  unfold j_max. rewrite !np_log_pos by lra. simpl. rewrite reqb_false by lra. reflexivity.
Qed.

(** the defining property of the largest scale *)
Lemma j_max_spec L lam : 1 <= L -> (1 < lam)%R ->
  exists J, j_max L lam = Ok J /\ (powerRZ lam (J - 1) < IZR L <= powerRZ lam J)%R.
Proof.
  intros HL Hlam. rewrite (j_max_ok L lam HL Hlam).
  pose proof (IZR_ge1 L HL) as HL'. pose proof (ln_pos lam Hlam) as Hp.
  set (q := (ln (IZR L) / ln lam)%R).
  assert (Hq : IZR L = exp (q * ln lam)).
  { unfold q. replace (ln (IZR L) / ln lam * ln lam)%R with (ln (IZR L)) by (field; lra).
    rewrite exp_ln; lra. }
  exists (rceil q). split; auto. rewrite !pw_exp by lra. rewrite Hq. unfold rceil.
  pose proof (Zceil_ub q). pose proof (Zceil_lb q). split.
  - apply exp_increasing. apply Rmult_lt_compat_r; auto. rewrite minus_IZR. lra.
  - destruct (Req_dec q (IZR (Zceil q))) as [E|E].
    + rewrite <- E. lra.
    + left. apply exp_increasing. apply Rmult_lt_compat_r; auto. lra.
Qed.

Lemma j_max_unique L lam J J' : (1 < lam)%R ->
  (powerRZ lam (J - 1) < IZR L <= powerRZ lam J)%R ->
  (powerRZ lam (J' - 1) < IZR L <= powerRZ lam J')%R -> J = J'.
Proof.
  intros Hlam [H1 H2] [H3 H4].
  assert (J - 1 < J') by (apply (pw_lt_inv lam); auto; lra).
  assert (J' - 1 < J) by (apply (pw_lt_inv lam); auto; lra). lia.
Qed.

Lemma j_max_iff L lam J : 1 <= L -> (1 < lam)%R ->
  j_max L lam = Ok J <-> (powerRZ lam (J - 1) < IZR L <= powerRZ lam J)%R.
Proof.
  intros HL Hlam. destruct (j_max_spec L lam HL Hlam) as (J0 & E & H0). split.
  - rewrite E. intros [= <-]. exact H0.
  - intros HJ. rewrite E. f_equal. eapply j_max_unique; eauto.
Qed.

Lemma j_max_nonneg L lam J : 1 <= L -> (1 < lam)%R -> j_max L lam = Ok J -> 0 <= J.
Proof.
  intros HL Hlam E. apply j_max_iff in E; auto. pose proof (IZR_ge1 L HL).
  destruct (Z_lt_le_dec J 0); auto.
  assert (powerRZ lam J < powerRZ lam 0)%R by (apply pw_lt; auto). rewrite pw_0 in *. lra.
Qed.
Lemma j_max_pos L lam J : 2 <= L -> (1 < lam)%R -> j_max L lam = Ok J -> 1 <= J.
Proof.
  intros HL Hlam E. apply j_max_iff in E; auto; [|lia].
  assert (2 <= IZR L)%R by now apply (IZR_le 2).
  destruct (Z_lt_le_dec J 1); auto.
  assert (powerRZ lam J <= powerRZ lam 0)%R by (apply pw_le; auto; lia). rewrite pw_0 in *. lra.
Qed.

Lemma j_max_small L lam : 2 <= L -> (0 < lam < 1)%R -> exists J, j_max L lam = Ok J /\ J <= 0.
Proof.
  intros HL [H1 H2]. assert (2 <= IZR L)%R by now apply (IZR_le 2).
  unfold j_max. rewrite !np_log_pos by lra. simpl.
  assert (ln lam < 0)%R by (rewrite <- ln_1; apply ln_increasing; lra).
  rewrite reqb_false by lra. simpl. eexists; split; [reflexivity|].
  assert (0 < ln (IZR L))%R by (apply ln_pos; lra).
  apply Zceil_glb. simpl.
  assert (0 < ln (IZR L) * / - ln lam)%R
    by (apply Rmult_lt_0_compat; auto; apply Rinv_0_lt_compat; lra).
  replace (ln (IZR L) / ln lam)%R with (- (ln (IZR L) * / - ln lam))%R by (field; lra). lra.
Qed.

Lemma j_max_fails L lam :
  lam = 1%R \/ (lam < 0)%R \/ L <= 0 ->
  j_max L lam = Err OverflowError \/ j_max L lam = Err ValueError.
Proof.
  intros H. unfold j_max.
  assert (Hlog : forall x, (x <= 0)%R -> np_log x = NInf \/ np_log x = NaN).
  { intros x Hx. unfold np_log. rewrite rltb_false by assumption.
    destruct (reqb x 0); auto. }
  destruct H as [->|[H|H]].
  - rewrite (np_log_pos 1) by lra. rewrite ln_1.
    destruct (np_log (IZR L)); simpl; rewrite ?(reqb_true 0 0), ?(rltb_false 0 0) by lra; auto.
    destruct (rltb 0 x); auto. destruct (rltb x 0); auto.
  - assert (np_log lam = NaN) as ->.
    { unfold np_log. rewrite rltb_false, reqb_false by lra. reflexivity. }
    destruct (np_log (IZR L)); simpl; auto.
  - destruct (Hlog (IZR L)) as [->| ->]; [now apply (IZR_le _ 0)| |].
    + destruct (np_log lam); simpl; auto. destruct (rltb x 0); auto.
    + destruct (np_log lam); simpl; auto.
Qed.

(** ** Ceilings *)
Lemma rceil_spec x : (IZR (rceil x) - 1 < x <= IZR (rceil x))%R.
Proof. unfold rceil. pose proof (Zceil_ub x). pose proof (Zceil_lb x). lra. Qed.
Lemma rceil_le_iff x n : (x <= IZR n)%R <-> rceil x <= n.
Proof.
  unfold rceil. split; intros H.
  - now apply Zceil_glb.
  - eapply Rle_trans; [apply Zceil_ub | now apply IZR_le].
Qed.
Lemma rceil_lt_iff x n : (IZR n < x)%R <-> n < rceil x.
Proof.
  split; intros H.
  - destruct (Z_lt_le_dec n (rceil x)); auto. apply rceil_le_iff in l. lra.
  - destruct (Rlt_le_dec (IZR n) x); auto. apply rceil_le_iff in r. lia.
Qed.
Lemma rceil_mono x y : (x <= y)%R -> rceil x <= rceil y.
Proof.
  intros. apply rceil_le_iff. eapply Rle_trans; [exact H|]. apply rceil_le_iff. lia.
Qed.
Lemma rceil_pos x : (0 < x)%R -> 1 <= rceil x.
Proof. intros. assert (0 < rceil x) by now apply rceil_lt_iff. lia. Qed.
Lemma rceil_IZR n : rceil (IZR n) = n.
Proof. unfold rceil. apply Zceil_IZR. Qed.

(** ** Per-scale band-limits: closed forms *)

Definition jj (j : Z) : Z := if j =? 0 then 1 else j.
Definition Lj_of (L j : Z) (lam : R) (mr : bool) : Z :=
  if mr then Z.min (rceil (powerRZ lam (jj j + 1))) L else L.
Definition L0_of (j : Z) (lam : R) (mr : bool) : Z :=
  if mr then rceil (powerRZ lam (jj j - 1)) else 0.
Definition Nj_of (L j N : Z) (lam : R) (mr : bool) : Z :=
  if mr then Z.min N (Lj_of L j lam mr) + (Z.min N (Lj_of L j lam mr) + N) mod 2 else N.
Definition Ls_of (L J_min : Z) (lam : R) (mr : bool) : Z :=
  if mr then Z.min (rceil (powerRZ lam J_min)) L else L.

Lemma jj_pos j : 0 <= j -> 1 <= jj j.
Proof. unfold jj. zb. Qed.
Lemma jj_jj j : jj (jj j) = jj j.
Proof. unfold jj. zb; auto. Qed.

Lemma wav_j_bandlimit_ok L j lam mr : (0 < lam)%R ->
  wav_j_bandlimit L j lam mr = Ok (Lj_of L j lam mr).
Proof.
  intros. unfold wav_j_bandlimit, Lj_of.
  replace (if j =? 0 then j + 1 else j) with (jj j) by (unfold jj; zb; auto).
  destruct mr; auto. now rewrite pypow_ok.
Qed.

Lemma LN_j_ok L j N lam mr : (0 < lam)%R ->
  LN_j L j N lam mr = Ok (Lj_of L j lam mr, Nj_of L j N lam mr, L0_of j lam mr).
Proof.
  intros. unfold LN_j.
  replace (if j =? 0 then j + 1 else j) with (jj j) by (unfold jj; zb; auto).
  rewrite wav_j_bandlimit_ok by assumption.
  replace (Lj_of L (jj j) lam mr) with (Lj_of L j lam mr)
    by (unfold Lj_of; now rewrite jj_jj).
  cbn [bind]. unfold L0_j, L0_of, Nj_of. destruct mr; auto.
  destruct (Z.eqb_spec (jj j) 0).
  - exfalso. unfold jj in e. revert e. zb.
  - simpl negb. cbn [bind]. rewrite pypow_ok by assumption. reflexivity.
Qed.

Lemma scal_bandlimit_ok L J_min lam mr : (0 < lam)%R ->
  scal_bandlimit L J_min lam mr = Ok (Ls_of L J_min lam mr).
Proof.
  intros. unfold scal_bandlimit, Ls_of. destruct mr; auto. now rewrite pypow_ok.
Qed.

Lemma Lj_range L j lam mr : 1 <= L -> (0 < lam)%R -> 1 <= Lj_of L j lam mr <= L.
Proof.
  intros HL Hl. unfold Lj_of. destruct mr; [|lia].
  assert (1 <= rceil (powerRZ lam (jj j + 1))) by (apply rceil_pos, pw_pos; auto). lia.
Qed.
Lemma L0_nonneg j lam mr : (0 < lam)%R -> 0 <= L0_of j lam mr.
Proof.
  intros. unfold L0_of. destruct mr; [|lia].
  assert (1 <= rceil (powerRZ lam (jj j - 1))) by (apply rceil_pos, pw_pos; auto). lia.
Qed.
Lemma Ls_range L J_min lam mr : 1 <= L -> (0 < lam)%R -> 1 <= Ls_of L J_min lam mr <= L.
Proof.
  intros HL Hl. unfold Ls_of. destruct mr; [|lia].
  assert (1 <= rceil (powerRZ lam J_min)) by (apply rceil_pos, pw_pos; auto). lia.
Qed.

Lemma jj_mono j j' : 0 <= j <= j' -> jj j <= jj j'.
Proof. unfold jj. zb. Qed.

Lemma Lj_mono L j j' lam mr : (1 < lam)%R -> 0 <= j <= j' ->
  Lj_of L j lam mr <= Lj_of L j' lam mr.
Proof.
  intros. unfold Lj_of. destruct mr; [|lia].
  assert (rceil (powerRZ lam (jj j + 1)) <= rceil (powerRZ lam (jj j' + 1))).
  { apply rceil_mono, pw_le; auto. apply jj_mono in H0. lia. }
  lia.
Qed.
Lemma L0_mono j j' lam mr : (1 < lam)%R -> 0 <= j <= j' ->
  L0_of j lam mr <= L0_of j' lam mr.
Proof.
  intros. unfold L0_of. destruct mr; [|lia].
  apply rceil_mono, pw_le; auto. apply jj_mono in H0. lia.
Qed.

(** lower band-limit of a scale j <= J stays below the band-limit of j-1 (and of j) *)
Lemma L0_le_Lj L j k lam mr J : 1 <= L -> (1 < lam)%R -> j_max L lam = Ok J ->
  0 <= j <= Z.max J 1 -> 0 <= k -> j <= k + 1 -> L0_of j lam mr <= Lj_of L k lam mr.
Proof.
  intros HL Hlam EJ Hj Hk Hjk. apply j_max_iff in EJ; auto.
  pose proof (Lj_range L k lam mr HL ltac:(lra)).
  unfold L0_of, Lj_of in *. destruct mr; [|lia].
  apply Z.min_glb.
  - apply rceil_mono, pw_le; auto. unfold jj. zb.
  - apply rceil_le_iff. destruct (Z.eq_dec (jj j) 1) as [E|E].
    + rewrite E. change (powerRZ lam (1 - 1)) with 1%R. now apply IZR_ge1.
    + assert (powerRZ lam (jj j - 1) <= powerRZ lam (J - 1))%R; [|lra].
      apply pw_le; auto. revert E. unfold jj. zb.
Qed.

Lemma Lj_full L j lam mr J : 1 <= L -> (1 < lam)%R -> j_max L lam = Ok J ->
  0 <= j -> J - 1 <= j -> Lj_of L j lam mr = L.
Proof.
  intros HL Hlam EJ H0 Hj. apply j_max_iff in EJ; auto. unfold Lj_of. destruct mr; auto.
  assert (L <= rceil (powerRZ lam (jj j + 1))); [|lia].
  assert (powerRZ lam J <= powerRZ lam (jj j + 1))%R.
  { apply pw_le; auto. unfold jj; zb. }
  pose proof (rceil_spec (powerRZ lam (jj j + 1))).
  apply le_IZR. lra.
Qed.

Lemma mod2_range x : 0 <= x mod 2 <= 1.
Proof. pose proof (Z.mod_pos_bound x 2). lia. Qed.

Lemma Nj_facts L j N lam mr : 1 <= L -> (0 < lam)%R -> 1 <= N ->
  let Lj := Lj_of L j lam mr in let Nj := Nj_of L j N lam mr in
  (mr = true -> Z.min N Lj <= Nj <= Z.min N (Lj + 1)) /\ (mr = false -> Nj = N) /\
  1 <= Nj <= N /\ (N - Nj) mod 2 = 0.
Proof.
  intros HL Hl HN Lj Nj. pose proof (Lj_range L j lam mr HL Hl) as HLj. fold Lj in HLj.
  unfold Nj, Nj_of. fold Lj. destruct mr.
  - assert (E : exists b, (Z.min N Lj + N) mod 2 = b /\ 0 <= b <= 1 /\
                exists q, Z.min N Lj + N = 2 * q + b).
    { exists ((Z.min N Lj + N) mod 2). split; auto. split; [apply mod2_range|].
      exists ((Z.min N Lj + N) / 2). apply Z.div_mod. lia. }
    destruct E as (b & -> & Hb & q & Hq).
    split; [intros _; lia|]. split; [discriminate|]. split; [lia|].
    replace (N - (Z.min N Lj + b)) with ((N - q - b) * 2) by lia. apply Z.mod_mul. lia.
  - split; [discriminate|]. split; auto. split; [lia|]. now rewrite Z.sub_diag.
Qed.

(** members of the stride-2 azimuthal loop *)
Lemma In_step2 N n : In n (zrange_st (- N + 1) N 2) <->
  (- N < n < N /\ (N - 1 - n) mod 2 = 0).
Proof.
  unfold zrange_st, range_len. rewrite in_map_iff.
  destruct (Z.ltb_spec (- N + 1) N).
  - split.
    + intros (k & <- & Hk). apply in_seq in Hk.
      assert ((N - (- N + 1) + 2 - 1) / 2 = N).
      { replace (N - (- N + 1) + 2 - 1) with (N * 2) by lia. apply Z.div_mul. lia. }
      split; [lia|]. replace (N - 1 - (- N + 1 + Z.of_nat k * 2)) with ((N - 1 - Z.of_nat k) * 2) by lia.
      apply Z.mod_mul. lia.
    + intros [Hn Hm]. apply Z.mod_divide in Hm; [|lia]. destruct Hm as [q Hq].
      exists (Z.to_nat (N - 1 - q)). split; [lia|]. apply in_seq.
      replace (N - (- N + 1) + 2 - 1) with (N * 2) by lia. rewrite Z.div_mul by lia. lia.
  - simpl. split; [intros (k & _ & [])| intros [Hn _]].
    lia.
Qed.

(** ** Constructors *)

(** a loop appending the result of a fallible computation *)
Definition build {A} (f : Z -> res A) (lo hi : Z) : res (list A) :=
  for_ (zrange lo hi) [] (fun j acc => x <- f j ;; Ok (acc ++ [x])).

Lemma build_inv {A} (f : Z -> res A) lo hi l : lo <= hi -> build f lo hi = Ok l ->
  Z.of_nat (length l) = hi - lo /\
  forall i, 0 <= i < hi - lo -> exists x, f (lo + i) = Ok x /\ nth_error l (Z.to_nat i) = Some x.
Proof.
  intros Hle H. unfold build in H.
  apply (for_inv (fun k acc => Z.of_nat (length acc) = k - lo /\
    forall i, 0 <= i < k - lo -> exists x, f (lo + i) = Ok x /\ nth_error acc (Z.to_nat i) = Some x))
    in H; auto.
  - split; [simpl; lia|]. intros; lia.
  - intros k a b Hk [Hl Ha] Hb. apply bind_inv in Hb as (x & Hx & [= <-]).
    rewrite app_length. simpl. split; [lia|]. intros i Hi.
    destruct (Z.eq_dec i (k - lo)) as [->|].
    + exists x. replace (lo + (k - lo)) with k by lia. split; auto.
      rewrite nth_error_app2 by lia. replace (_ - _)%nat with 0%nat by lia. reflexivity.
    + destruct (Ha i) as (y & Hy & Hn); [lia|]. exists y. split; auto.
      rewrite nth_error_app1 by lia. exact Hn.
Qed.

Lemma build_total {A} (f : Z -> res A) (g : Z -> A) lo hi :
  lo <= hi -> (forall j, lo <= j < hi -> f j = Ok (g j)) ->
  build f lo hi = Ok (map g (zrange lo hi)).
Proof.
  intros. apply for_append; auto. intros. now rewrite H0 by assumption.
Qed.

Definition flmn_zero (L N : Z) (lam : R) (mr : bool) (j : Z) : arr3 C :=
  mk3 (2 * Nj_of L j N lam mr - 1) (Lj_of L j lam mr) (2 * Lj_of L j lam mr - 1)
      (fun _ _ _ => RtoC 0).

Lemma flmn_wav_j_ok L j N lam mr : (0 < lam)%R ->
  flmn_wav_j L j N lam mr
  = Ok (2 * Nj_of L j N lam mr - 1, Lj_of L j lam mr, 2 * Lj_of L j lam mr - 1).
Proof. intros. unfold flmn_wav_j. now rewrite LN_j_ok by assumption. Qed.

Lemma flmn_entry_ok L j N lam mr : 1 <= L -> (0 < lam)%R -> 1 <= N ->
  bind (flmn_wav_j L j N lam mr) (fun '(a, b, c) => zeros3 a b c)
  = Ok (flmn_zero L N lam mr j).
Proof.
  intros HL Hl HN. rewrite flmn_wav_j_ok by assumption. cbn [bind].
  pose proof (Lj_range L j lam mr HL Hl).
  destruct (Nj_facts L j N lam mr HL Hl HN) as (_ & _ & H1 & _).
  rewrite zeros3_ok by lia. reflexivity.
Qed.

Lemma construct_flmn_ok L N J_min lam mr J : 1 <= L -> (0 < lam)%R -> 1 <= N ->
  j_max L lam = Ok J -> J_min <= J + 1 ->
  construct_flmn L N J_min lam mr = Ok (map (flmn_zero L N lam mr) (zrange J_min (J + 1))).
Proof.
  intros HL Hl HN EJ HJ. unfold construct_flmn. rewrite EJ. cbn [bind].
  apply for_append; [lia|]. intros i acc Hi.
  pose proof (flmn_entry_ok L i N lam mr HL Hl HN) as E.
  rewrite flmn_wav_j_ok in * by assumption. cbn [bind] in *. rewrite E. reflexivity.
Qed.

Lemma construct_flmn_jax_eq L N J_min lam mr :
  construct_flmn_jax L N J_min None lam mr = construct_flmn L N J_min lam mr.
Proof. reflexivity. Qed.
Lemma construct_flmn_torch_eq L N J_min J_max lam mr :
  construct_flmn_torch L N J_min J_max lam mr = construct_flmn_jax L N J_min J_max lam mr.
Proof. reflexivity. Qed.

Lemma construct_flmn_jax_ok L N J_min lam mr J : 1 <= L -> (0 < lam)%R -> 1 <= N ->
  J_min <= J + 1 ->
  construct_flmn_jax L N J_min (Some J) lam mr
  = Ok (map (flmn_zero L N lam mr) (zrange J_min (J + 1))).
Proof.
  intros HL Hl HN HJ. unfold construct_flmn_jax, pick_J. cbn [bind].
  apply for_append; [lia|]. intros i acc Hi.
  pose proof (flmn_entry_ok L i N lam mr HL Hl HN) as E.
  rewrite flmn_wav_j_ok in * by assumption. cbn [bind] in *. rewrite E. reflexivity.
Qed.

Lemma construct_flm_ok L J_min lam mr : 1 <= L -> (0 < lam)%R ->
  construct_flm L J_min lam mr
  = Ok (mk2 (Ls_of L J_min lam mr) (2 * Ls_of L J_min lam mr - 1) (fun _ _ => RtoC 0)).
Proof.
  intros HL Hl. unfold construct_flm. rewrite scal_bandlimit_ok by assumption. cbn [bind].
  pose proof (Ls_range L J_min lam mr HL Hl). now rewrite zeros2_ok by lia.
Qed.

(** sampling schemes for which a pixel shape exists *)
Definition sampling_ok (s : sampling) (nside : option Z) : Prop :=
  match s with Unknown => False | HEALPIX => nside <> None | _ => True end.

Lemma so3_shape_total L N s nside : sampling_ok s nside -> exists sh, so3_f_shape L N s nside = Ok sh.
Proof.
  destruct s; simpl; intros H; try contradiction; try (eexists; reflexivity).
  destruct nside; [eexists; reflexivity | congruence].
Qed.
Lemma s2_shape_total L s nside : sampling_ok s nside -> exists sh, s2_f_shape L s nside = Ok sh.
Proof.
  destruct s; simpl; intros H; try contradiction; try (eexists; reflexivity).
  destruct nside; [eexists; reflexivity | congruence].
Qed.
Lemma f_wav_j_total L j N lam s nside mr : (0 < lam)%R -> sampling_ok s nside ->
  exists sh, f_wav_j L j N lam s nside mr = Ok sh.
Proof.
  intros. unfold f_wav_j. rewrite LN_j_ok by assumption. now apply so3_shape_total.
Qed.
Lemma f_wav_j_ok L j N lam s nside mr : (0 < lam)%R ->
  f_wav_j L j N lam s nside mr = so3_f_shape (Lj_of L j lam mr) (Nj_of L j N lam mr) s nside.
Proof. intros. unfold f_wav_j. now rewrite LN_j_ok by assumption. Qed.
Lemma f_scal_ok L J_min lam s nside mr : (0 < lam)%R ->
  f_scal L J_min lam s nside mr = s2_f_shape (Ls_of L J_min lam mr) s nside.
Proof.
  intros. unfold f_scal, Ls_of. destruct mr; auto. now rewrite pypow_ok by assumption.
Qed.

Lemma so3_shape_nonneg L N s nside sh : 1 <= L -> 1 <= N ->
  so3_f_shape L N s nside = Ok sh -> forallb (fun d => 0 <=? d) sh = true.
Proof.
  intros HL HN H. destruct s; cbn [so3_f_shape ntheta nphi bind] in H; try discriminate;
    try (destruct nside as [k|]; [pose proof (Z.square_nonneg k)|discriminate]); apply Ok_inj in H; subst sh; cbn [forallb];
    repeat (apply andb_true_iff; split); try reflexivity; apply Z.leb_le; lia.
Qed.

Lemma construct_f_entry L N lam s nside mr j sh : 1 <= L -> (0 < lam)%R -> 1 <= N ->
  f_wav_j L j N lam s nside mr = Ok sh -> zeros_nd sh = Ok (Nd sh (fun _ => RtoC 0)).
Proof.
  intros HL Hl HN H. rewrite f_wav_j_ok in H by assumption.
  apply so3_shape_nonneg in H.
  - unfold zeros_nd. now rewrite H.
  - now apply Lj_range.
  - now apply (Nj_facts L j N lam mr HL Hl HN).
Qed.

Definition f_wav_sh (L N : Z) (lam : R) (s : sampling) (nside : option Z) (mr : bool) (j : Z)
  : list Z := match f_wav_j L j N lam s nside mr with Ok sh => sh | Err _ => [] end.

Lemma construct_f_ok L N J_min lam s nside mr J : 1 <= L -> (0 < lam)%R -> 1 <= N ->
  sampling_ok s nside -> j_max L lam = Ok J -> J_min <= J + 1 ->
  construct_f L N J_min lam s nside mr
  = Ok (map (fun j => Nd (f_wav_sh L N lam s nside mr j) (fun _ => RtoC 0)) (zrange J_min (J + 1))).
Proof.
  intros HL Hl HN Hs EJ HJ. unfold construct_f. rewrite EJ. cbn [bind].
  apply for_append; [lia|]. intros i acc Hi.
  destruct (f_wav_j_total L i N lam s nside mr Hl Hs) as (sh & E).
  unfold f_wav_sh. rewrite E. cbn [bind].
  rewrite (construct_f_entry L N lam s nside mr i sh HL Hl HN E). reflexivity.
Qed.

(** ** Shape check *)

Lemma zlist_eqb_eq a b : zlist_eqb a b = true <-> a = b.
Proof.
  revert b; induction a; destruct b; simpl; split; intros H; try discriminate; auto.
  - apply andb_true_iff in H as [H1 H2]. apply Z.eqb_eq in H1. apply IHa in H2. congruence.
  - injection H as -> ->. rewrite Z.eqb_refl. simpl. now apply IHa.
Qed.

Lemma guard_ok c e : guard c e = Ok tt <-> c = true.
Proof. destruct c; simpl; split; intros; auto; discriminate. Qed.

(** a loop of checks succeeds iff each check does, else fails with a check's error *)
Lemma for_check lo hi (c : Z -> bool) (body : Z -> unit -> res unit) : lo <= hi ->
  (forall i u, lo <= i < hi -> body i u = guard (c i) AssertionError) ->
  (for_ (zrange lo hi) tt body = Ok tt <-> forall i, lo <= i < hi -> c i = true) /\
  (for_ (zrange lo hi) tt body = Ok tt \/ for_ (zrange lo hi) tt body = Err AssertionError).
Proof.
  intros Hle.
  assert (Hn : hi = lo + Z.of_nat (Z.to_nat (hi - lo))) by lia.
  rewrite Hn. clear Hn Hle. generalize (Z.to_nat (hi - lo)) as n. clear hi.
  intros n; revert lo; induction n; intros lo Hb.
  - rewrite zrange_nil by lia. simpl. split; [|auto]. split; auto. intros; lia.
  - rewrite zrange_cons by lia. cbn [for_]. rewrite Hb by lia.
    replace (lo + Z.of_nat (S n)) with (lo + 1 + Z.of_nat n) in * by lia.
    destruct (IHn (lo + 1)) as [I1 I2]. { intros; apply Hb; lia. }
    destruct (c lo) eqn:E; cbn [bind guard].
    + split; [|exact I2]. rewrite I1. split; intros H i Hi.
      * destruct (Z.eq_dec i lo) as [->|]; auto. apply H. lia.
      * apply H. lia.
    + split; [|auto]. split; [discriminate|]. intros H. rewrite H in E by lia. discriminate.
Qed.

Lemma shape_check_spec f_w f_s L N J_min lam s nside mr J :
  1 <= L -> (1 < lam)%R -> sampling_ok s nside -> j_max L lam = Ok J -> 0 <= J_min <= J ->
  let r := wavelet_shape_check f_w f_s L N J_min lam s nside mr in
  (r = Ok tt <->
     n_wav_scales L N J_min lam = Ok (Z.of_nat (length f_w)) /\
     f_scal L J_min lam s nside mr = Ok (nshape f_s) /\
     forall i a, nth_error f_w i = Some a ->
       f_wav_j L (J_min + Z.of_nat i) N lam s nside mr = Ok (nshape a)) /\
  (r = Ok tt \/ r = Err AssertionError).
Proof.
  intros HL Hlam Hs EJ HJ r.
  assert (Hl : (0 < lam)%R) by lra.
  assert (En : n_wav_scales L N J_min lam = Ok (J - J_min + 1))
    by (unfold n_wav_scales; now rewrite EJ).
  assert (exists sh, f_scal L J_min lam s nside mr = Ok sh) as (shs & Es).
  { rewrite f_scal_ok by assumption. now apply s2_shape_total. }
  unfold r, wavelet_shape_check. rewrite En, Es, EJ. cbn [bind].
  destruct (Z.eqb_spec (Z.of_nat (length f_w)) (J - J_min + 1)) as [Hlen|Hlen].
  2: { cbn [bind guard]. split; [|auto]. split; [discriminate|]. intros [H _]. congruence. }
  cbn [bind guard].
  destruct (zlist_eqb (nshape f_s) shs) eqn:Ez.
  2: { cbn [bind guard]. split; [|auto]. split; [discriminate|].
       intros (_ & H & _). injection H as ->.
       assert (zlist_eqb (nshape f_s) (nshape f_s) = true) by now apply zlist_eqb_eq. congruence. }
  apply zlist_eqb_eq in Ez. subst shs. cbn [bind guard].
  destruct (for_check J_min (J + 1)
     (fun j => zlist_eqb (match nth_error f_w (Z.to_nat (j - J_min)) with
                          | Some a => nshape a | None => [] end) (f_wav_sh L N lam s nside mr j))
     (fun j _ => a <- lrd f_w (j - J_min) ;;
                 sh <- f_wav_j L j N lam s nside mr ;;
                 guard (zlist_eqb (nshape a) sh) AssertionError)) as [I1 I2].
  { lia. }
  { intros j u Hj. unfold lrd. rewrite idx_ok by lia. cbn [bind].
    destruct (nth_error f_w (Z.to_nat (j - J_min))) eqn:E.
    - cbn [bind]. destruct (f_wav_j_total L j N lam s nside mr Hl Hs) as (sh & Esh).
      unfold f_wav_sh. rewrite Esh. reflexivity.
    - apply nth_error_None in E. lia. }
  split; [|exact I2]. rewrite I1. split.
  - intros H. split; [congruence|]. split; auto. intros i a Ha.
    assert (i < length f_w)%nat by (apply nth_error_Some; congruence).
    specialize (H (J_min + Z.of_nat i)).
    replace (Z.to_nat (J_min + Z.of_nat i - J_min)) with i in H by lia.
    rewrite Ha in H. apply zlist_eqb_eq in H; [|lia].
    unfold f_wav_sh in H.
    destruct (f_wav_j_total L (J_min + Z.of_nat i) N lam s nside mr Hl Hs) as (sh & Esh).
    rewrite Esh in *. congruence.
  - intros (_ & _ & H) j Hj. apply zlist_eqb_eq.
    destruct (nth_error f_w (Z.to_nat (j - J_min))) eqn:E.
    + apply H in E. unfold f_wav_sh.
      replace (J_min + Z.of_nat (Z.to_nat (j - J_min))) with j in E by lia. now rewrite E.
    + apply nth_error_None in E. lia.
Qed.
