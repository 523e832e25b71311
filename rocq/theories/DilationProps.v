(*T Wavelets of different scales are dilations of one another (C84) *)
(*! From Coq Require Import ZArith Reals List Bool. *)
(*! From Coquelicot Require Import Complex. *)
(*! From Verif Require Import Py ModelSamples ModelFilters Spec. *)
(** Statements and proofs for PropertiesDilation.v *)

From Coq Require Import ZArith Reals List Bool Lia Lra.
From Coquelicot Require Import Rcomplements Complex.
From Flocq Require Import Core.Raux.
From Verif Require Import Py PyFacts ModelSamples SamplesFacts ModelFilters Spec FiltersFacts
  AxisymFacts DirectionFacts DirFilterFacts SamplesProps FiltersProps.
Import ListNotations.
Open Scope Z_scope.

Lemma rltb_scale c x y : (0 < c)%R -> rltb (c * x) (c * y) = rltb x y.
Proof.
  intros Hc. destruct (Rlt_dec x y) as [H|H].
  - rewrite !rltb_true; auto. now apply Rmult_lt_compat_l.
  - apply Rnot_lt_le in H. rewrite !rltb_false; auto. apply Rmult_le_compat_l; lra.
Qed.
Lemma kv_dilated lam n s j l l' : (1 < lam)%R -> IZR l' = (powerRZ lam s * IZR l)%R -> kv lam n (j + s) l' = kv lam n j l.
Proof.
  intros Hl E. assert (P : forall i, (0 < powerRZ lam i)%R) by (intros; apply pw_pos; lra).
  assert (A : forall i, powerRZ lam (i + s) = (powerRZ lam s * powerRZ lam i)%R)
    by (intros; rewrite powerRZ_add by lra; ring).
  unfold kv. replace (j + s - 1) with (j - 1 + s) by lia. rewrite E, !A, !rltb_scale by auto.
  replace (powerRZ lam s * IZR l / (powerRZ lam s * powerRZ lam j))%R with (IZR l / powerRZ lam j)%R; [reflexivity|].
  field. split; apply Rgt_not_eq, P.
Qed.
Lemma kdiff_dilated lam n s j l l' : (1 < lam)%R -> IZR l' = (powerRZ lam s * IZR l)%R ->
  kdiff lam n (j + s) l' = kdiff lam n j l.
Proof.
  intros Hl E. unfold kdiff. replace (j + s + 1) with (j + 1 + s) by lia. now rewrite !(kv_dilated lam n s _ l l').
Qed.
Lemma sd_dilated N l l' m : 1 <= N -> N <= l -> N <= l' -> sd N l' m = sd N l m.
Proof.
  intros HN H H'. unfold sd. replace (1 <=? l') with true by (symmetry; apply Z.leb_le; lia).
  replace (1 <=? l) with true by (symmetry; apply Z.leb_le; lia).
  destruct (dmask N m) eqn:D; [|now rewrite !andb_false_r].
  assert (Z.abs m < N) by (unfold dmask in D; apply andb_prop in D as [D _]; apply Z.ltb_lt in D; exact D).
  replace (Z.abs m <=? l') with true by (symmetry; apply Z.leb_le; lia).
  replace (Z.abs m <=? l) with true by (symmetry; apply Z.leb_le; lia). cbn [andb].
  assert (G : forall x, N <= x -> gam N x = N - 1) by (intros x Hx; unfold gam; destruct (negb _); lia).
  unfold dsq. now rewrite !G.
Qed.

(*% ** C84: filters of scale j + s at degree lam^s l are those of scale j at degree l *)
(*% L and L' are the band-limits for which the two sets of filters are built; they may be equal *)

(*@ C84_generating_function *)
Lemma gen_dilated : forall L L' lam n J J' k k', 1 <= L -> 1 <= L' -> (1 < lam)%R -> 3 <= n ->
  k_lam L lam n = Ok k -> k_lam L' lam n = Ok k' -> j_max L lam = Ok J -> j_max L' lam = Ok J' ->
  forall s j l l', 0 <= j <= J + 1 -> 0 <= j + s <= J' + 1 -> 0 <= l < L -> 0 <= l' < L' ->
  IZR l' = (powerRZ lam s * IZR l)%R -> get2 k' (j + s) l' = get2 k j l.
Proof.
  intros L L' lam n J J' k k' HL HL' Hl Hn Ek Ek' EJ EJ' s j l l' Hj Hj' Hl1 Hl2 E.
  rewrite (k_lam_ok lam Hl L n J) in Ek by auto. rewrite (k_lam_ok lam Hl L' n J') in Ek' by auto.
  apply Ok_inj in Ek. apply Ok_inj in Ek'. subst k k'. rewrite !get2_mk by lia. now apply kv_dilated.
Qed.

(*@ C84_scaling_filter *)
Lemma scal_dilated : forall L L' lam J_min psi phi psi' phi' s, 1 <= L -> 1 <= L' -> (1 < lam)%R ->
  filters_axisym L J_min lam = Ok (psi, phi) \/ filters_axisym_vectorised L J_min lam = Ok (psi, phi) \/
  filters_axisym_jax L J_min lam = Ok (psi, phi) ->
  filters_axisym L' (J_min + s) lam = Ok (psi', phi') \/ filters_axisym_vectorised L' (J_min + s) lam = Ok (psi', phi') \/
  filters_axisym_jax L' (J_min + s) lam = Ok (psi', phi') ->
  forall l l', 0 <= l < L -> 0 <= l' < L' -> IZR l' = (powerRZ lam s * IZR l)%R -> get1 phi' l' = get1 phi l.
Proof.
  intros L L' lam J_min psi phi psi' phi' s HL HL' Hl H H' l l' Hl1 Hl2 E.
  assert (A : forall L J_min psi phi, 1 <= L -> filters_axisym L J_min lam = Ok (psi, phi) \/
     filters_axisym_vectorised L J_min lam = Ok (psi, phi) \/ filters_axisym_jax L J_min lam = Ok (psi, phi) -> phi = phi_ax lam L J_min).
  { clear - Hl. intros L J_min psi phi HL H.
    destruct (jax_eq L 1 lam J_min 0 300 HL ltac:(lia) Hl) as (_ & EA & _). rewrite EA in H.
    destruct H as [H|[H|H]]; [destruct (inv_axi lam L J_min Hl HL psi phi H) as (J & _ & _ & _ & ->)| |];
      [reflexivity| |]; destruct (inv_vec lam L J_min Hl HL psi phi H) as (J & _ & _ & _ & ->); reflexivity. }
  rewrite (A L _ _ _ HL H), (A L' _ _ _ HL' H'). unfold phi_ax. rewrite !get1_mk by lia. now rewrite (kv_dilated lam Q s J_min l l').
Qed.

(*@ C84_wavelet_filters *)
Lemma wav_dilated : forall L L' lam J_min J_min' J J' psi phi psi' phi', 1 <= L -> 1 <= L' -> (1 < lam)%R ->
  filters_axisym_vectorised L J_min lam = Ok (psi, phi) \/ filters_axisym_jax L J_min lam = Ok (psi, phi) ->
  filters_axisym_vectorised L' J_min' lam = Ok (psi', phi') \/ filters_axisym_jax L' J_min' lam = Ok (psi', phi') ->
  j_max L lam = Ok J -> j_max L' lam = Ok J' ->
  forall s j l l', 0 <= j <= J -> 0 <= j + s <= J' -> 0 <= l < L -> 0 <= l' < L' ->
  IZR l' = (powerRZ lam s * IZR l)%R -> get2 psi' (j + s) l' = get2 psi j l.
Proof.
  intros L L' lam J_min J_min' J J' psi phi psi' phi' HL HL' Hl H H' EJ EJ' s j l l' Hj Hj' Hl1 Hl2 E.
  destruct (jax_eq L 1 lam J_min 0 300 HL ltac:(lia) Hl) as (_ & EA & _). rewrite EA in H.
  destruct (jax_eq L' 1 lam J_min' 0 300 HL' ltac:(lia) Hl) as (_ & EA' & _). rewrite EA' in H'.
  assert (K : filters_axisym_vectorised L J_min lam = Ok (psi, phi)) by tauto.
  assert (K' : filters_axisym_vectorised L' J_min' lam = Ok (psi', phi')) by tauto.
  destruct (inv_vec lam L J_min Hl HL psi phi K) as (J1 & E1 & _ & -> & _). destruct (inv_vec lam L' J_min' Hl HL' psi' phi' K') as (J2 & E2 & _ & -> & _).
  assert (J1 = J) as -> by (eapply same_J; eauto). assert (J2 = J') as -> by (eapply same_J; eauto).
  unfold psi_vec. rewrite !get2_mk by lia. now rewrite (kdiff_dilated lam Q s j l l').
Qed.

(*% the looped filters, where the generating function does not decrease from scale j to j + 1 *)
(*@ C84_wavelet_filters_looped *)
Lemma wav_dilated_looped : forall L L' lam J_min J_min' J J' psi phi psi' phi' k, 1 <= L -> 1 <= L' -> (1 < lam)%R ->
  filters_axisym L J_min lam = Ok (psi, phi) -> filters_axisym L' J_min' lam = Ok (psi', phi') ->
  j_max L lam = Ok J -> j_max L' lam = Ok J' -> k_lam L lam 300 = Ok k ->
  forall s j l l', J_min <= j <= J -> J_min' <= j + s <= J' -> 0 <= l < L -> 0 <= l' < L' ->
  IZR l' = (powerRZ lam s * IZR l)%R -> (get2 k j l <= get2 k (j + 1) l)%R -> get2 psi' (j + s) l' = get2 psi j l.
Proof.
  intros L L' lam J_min J_min' J J' psi phi psi' phi' k HL HL' Hl H H' EJ EJ' Ek s j l l' Hj Hj' Hl1 Hl2 E Hk.
  destruct (inv_axi lam L J_min Hl HL psi phi H) as (J1 & E1 & HJ & _ & _). destruct (inv_axi lam L' J_min' Hl HL' psi' phi' H') as (J2 & E2 & HJ' & _ & _).
  assert (J1 = J) as -> by (eapply same_J; eauto). assert (J2 = J') as -> by (eapply same_J; eauto).
  destruct (valid_range L 1 lam J J_min 0 0 HL ltac:(lia) Hl EJ HJ) as (_ & (a & b & V & _) & _).
  destruct (valid_range L' 1 lam J' J_min' 0 0 HL' ltac:(lia) Hl EJ' HJ') as (_ & (a' & b' & V' & _) & _).
  pose proof (k_lam_ok lam Hl L' 300 J' HL' ltac:(lia) EJ') as Ek'.
  destruct (axi_loop_vec L lam J_min J psi phi a b k HL Hl H V Ek EJ) as (_ & A). 
  destruct (axi_loop_vec L' lam J_min' J' psi' phi' a' b' _ HL' Hl H' V' Ek' EJ') as (_ & A').
  rewrite A, A'; auto; try lia.
  - apply (wav_dilated L L' lam J_min J_min' J J' a b a' b'); auto; lia.
  - replace (j + s + 1) with (j + 1 + s) by lia.
    rewrite !(gen_dilated L L' lam 300 J J' k _ HL HL' Hl ltac:(lia) Ek Ek' EJ EJ' s _ l l') by (auto; lia). exact Hk.
Qed.

(*% the directional filters, up to their factors sqrt(2l+1): the directional component does not depend on the degree from N on *)
(*@ C84_directional_filters *)
Lemma dir_dilated : forall L L' N lam J_min J_min' J J' spin psi phi psi' phi', 1 <= L -> 1 <= L' -> 1 <= N -> (1 < lam)%R ->
  filters_directional_vectorised L N J_min lam spin 0 = Ok (psi, phi) \/ filters_directional_jax L N J_min lam spin 0 = Ok (psi, phi) ->
  filters_directional_vectorised L' N J_min' lam spin 0 = Ok (psi', phi') \/ filters_directional_jax L' N J_min' lam spin 0 = Ok (psi', phi') ->
  j_max L lam = Ok J -> j_max L' lam = Ok J' ->
  forall s j l l' m, 0 <= j <= J -> 0 <= j + s <= J' -> N <= l < L -> N <= l' < L' -> Z.abs spin <= l -> Z.abs spin <= l' ->
  Z.abs m < L -> Z.abs m < L' -> IZR l' = (powerRZ lam s * IZR l)%R ->
  Cmult (RtoC (sqrt (2 * IZR l + 1))) (get3 psi' (j + s) l' (L' - 1 + m))
  = Cmult (RtoC (sqrt (2 * IZR l' + 1))) (get3 psi j l (L - 1 + m)).
Proof.
  intros L L' N lam J_min J_min' J J' spin psi phi psi' phi' HL HL' HN Hl H H' EJ EJ' s j l l' m Hj Hj' Hl1 Hl2 Hs Hs' Hm Hm' E.
  assert (K : filters_directional_vectorised L N J_min lam spin 0 = Ok (psi, phi)) by (destruct H as [H|H]; [exact H|apply jax_to_vec; auto]).
  assert (K' : filters_directional_vectorised L' N J_min' lam spin 0 = Ok (psi', phi')) by (destruct H' as [H'|H']; [exact H'|apply jax_to_vec; auto]).
  destruct (inv_dvec lam L J_min Hl HL N spin 0 psi phi HN K) as (J1 & E1 & HJ & _ & -> & _).
  destruct (inv_dvec lam L' J_min' Hl HL' N spin 0 psi' phi' HN K') as (J2 & E2 & HJ' & _ & -> & _).
  assert (J1 = J) as -> by (eapply same_J; eauto). assert (J2 = J') as -> by (eapply same_J; eauto).
  unfold psid. rewrite !get3_mk by lia. unfold el_min.
  replace (0 <=? j + s) with true by (symmetry; apply Z.leb_le; lia). replace (0 <=? j) with true by (symmetry; apply Z.leb_le; lia).
  replace (Z.max (Z.abs spin) (Z.abs 0) <=? l') with true by (symmetry; apply Z.leb_le; lia).
  replace (Z.max (Z.abs spin) (Z.abs 0) <=? l) with true by (symmetry; apply Z.leb_le; lia). cbn [andb].
  replace (L' - 1 + m - (L' - 1)) with m by lia. replace (L - 1 + m - (L - 1)) with m by lia.
  rewrite (sd_dilated N l l' m) by lia. unfold Fvec. rewrite (kdiff_dilated lam Q s j l l' Hl E).
  unfold wsp. rewrite Z.eqb_refl. unfold cpsi. rewrite !plus_IZR, !mult_IZR.
  assert (P : (0 < 8 * PI * PI)%R) by (pose proof PI_RGT_0; apply Rmult_lt_0_compat; lra).
  assert (0 <= IZR l)%R by (apply IZR_le; lia). assert (0 <= IZR l')%R by (apply IZR_le; lia).
  rewrite !sqrt_div by lra. unfold Rdiv. rewrite !RtoC_mult. ring.
Qed.

(*% lam = 2: degree 6 at scale 3 (L = 9, J = 4) against degree 3 at scale 2 (L = 5, J = 3) *)
(*@E C84_example *)
Lemma ex_c84 : exists psi phi psi' phi', j_max 5 2 = Ok 3 /\ j_max 9 2 = Ok 4 /\
  filters_axisym_vectorised 5 1 2 = Ok (psi, phi) /\ filters_axisym_vectorised 9 2 2 = Ok (psi', phi') /\
  get2 psi' 3 6 = get2 psi 2 3 /\ get1 phi' 2 = get1 phi 1 /\ (0 < get2 psi 1 2)%R /\ get2 psi' 2 4 = get2 psi 1 2.
Proof.
  destruct j_max_5_2 as (EJ & _).
  assert (EJ' : j_max 9 2 = Ok 4) by (apply j_max_iff; [lia|lra|]; simpl; lra).
  destruct (valid_range 5 1 2 3 1 0 0) as (_ & (p & q & E & _) & _); auto; try lia; try lra.
  destruct (valid_range 9 1 2 4 2 0 0) as (_ & (p' & q' & E' & _) & _); auto; try lia; try lra.
  exists p, q, p', q'. split; [exact EJ|]. split; [exact EJ'|]. split; [exact E|]. split; [exact E'|].
  split; [|split; [|split]].
  - apply (wav_dilated 5 9 2 1 2 3 4 p q p' q' ltac:(lia) ltac:(lia) ltac:(lra) (or_introl E) (or_introl E') EJ EJ' 1 2 3 6); try lia. simpl. lra.
  - apply (scal_dilated 5 9 2 1 p q p' q' 1 ltac:(lia) ltac:(lia) ltac:(lra) (or_intror (or_introl E)) (or_intror (or_introl E')) 1 2); try lia. simpl. lra.
  - destruct (inv_vec 2 5 1 ltac:(lra) ltac:(lia) p q E) as (J1 & E1 & _ & -> & _).
    assert (J1 = 3) as -> by (eapply same_J; eauto). unfold psi_vec. rewrite get2_mk by lia. unfold kdiff.
    rewrite (kv_one 2 ltac:(lra) Q (1 + 1) 2), (kv_zero 2 ltac:(lra) Q 1 2) by (try apply HQ; simpl; lra).
    rewrite Rmax_right by lra. rewrite Rminus_0_r, sqrt_1. lra.
  - apply (wav_dilated 5 9 2 1 2 3 4 p q p' q' ltac:(lia) ltac:(lia) ltac:(lra) (or_introl E) (or_introl E') EJ EJ' 1 1 2 4); try lia. simpl. lra.
Qed.
