(*T Spin-lowered wavelets never reconstruct (C24) *)
(*! From Coq Require Import ZArith Reals List Bool. *)
(*! From Coquelicot Require Import Complex. *)
(*! From Verif Require Import Py ModelSamples ModelFilters ModelTransforms Spec SpecTransforms SpecQuad Demo. *)
(** * Proofs about spin-lowered wavelets in the form in which PropertiesSpin.v states them *)

From Coq Require Import ZArith Reals List Bool Lia Lra.
From Coquelicot Require Import Rcomplements Complex.
From Verif Require Import Py PyFacts ModelSamples SamplesFacts ModelFilters ModelTransforms Spec SpecTransforms SpecQuad
  FiltersFacts AxisymFacts DirectionFacts DirFilterFacts SamplesProps FiltersProps Demo ReconFacts TransformsFacts TransformsProps QuadProps.
Import ListNotations.
Open Scope Z_scope.

Lemma fct_double a b : 0 <= a < b -> 2 <= b -> (2 * factorial a <= factorial b)%R.
Proof.
  intros Ha Hb. unfold factorial. change 2%R with (INR 2). rewrite <- mult_INR. apply le_INR.
  assert (fact (Z.to_nat a) <= fact (Z.to_nat b - 1))%nat by (apply fact_le; lia).
  assert (2 <= Z.to_nat b)%nat by lia. destruct (Z.to_nat b) as [|n]; [lia|].
  replace (S n - 1)%nat with n in * by lia. cbn [fact]. pose proof (lt_O_fact n). nia.
Qed.
Lemma ratio_gap l s : s <> 0 -> Z.abs s <= l -> (2 <= spin_ratio l s \/ 0 < spin_ratio l s <= 1 / 2)%R.
Proof.
  intros Hs Hl. unfold spin_ratio.
  assert (P : forall x, (0 < factorial x)%R) by (intros; apply lt_0_INR, lt_O_fact).
  pose proof (P (l - s)). pose proof (P (l + s)). destruct (Z_lt_le_dec 0 s).
  - left. pose proof (fct_double (l - s) (l + s) ltac:(lia) ltac:(lia)). apply Rle_div_r; lra.
  - right. pose proof (fct_double (l + s) (l - s) ltac:(lia) ltac:(lia)). split; [now apply Rdiv_lt_0_compat|].
    apply Rle_div_l; lra.
Qed.

(*% ** C24: the factor of the round trip, and its failure, without conditions on the generating function *)

(*% the admissibility sum is that of the axisymmetric filters times (l+s)!/(l-s)! *)
(*@ C24_spin0_factor_in_general *)
Lemma spin0_total_any : forall L N lam J_min J spin spin0 psi phi apsi aphi,
  1 <= L -> 1 <= N -> (1 < lam)%R ->
  filters_directional L N J_min lam spin spin0 = Ok (psi, phi) ->
  filters_axisym L J_min lam = Ok (apsi, aphi) -> j_max L lam = Ok J ->
  forall l, 0 <= l < L ->
  dir_total L psi phi J_min J l
  = if l <? Z.max (Z.abs spin) (Z.abs spin0) then 0%R else (spin_ratio l spin0 * axi_total apsi aphi J_min J l)%R.
Proof.
  intros L N lam J_min J spin spin0 psi phi apsi aphi HL HN Hlam E Ea EJ l Hl.
  destruct (Z.ltb_spec l (Z.max (Z.abs spin) (Z.abs spin0))).
  - eapply dir_total_low; eauto.
  - apply (dir_adm_looped L N lam J_min J spin spin0 psi phi _ _ HL HN Hlam E Ea EJ l). lia.
Qed.

(*% whenever the quadrature error of C51 is below 1/3 (dilations up to 17), no field but zero is reconstructed *)
(*@ C24_spin0_never_reconstructs *)
Lemma spin0_never : forall O f flm L N lam J_min J spin spin0 s nside (reality : bool) mr psi phi apsi aphi,
  1 <= L -> 1 <= N <= L -> (1 < lam)%R -> spin0 <> 0 -> (3 * quad_error lam 300 < 1)%R ->
  filters_directional L N J_min lam spin spin0 = Ok (psi, phi) ->
  filters_axisym L J_min lam = Ok (apsi, aphi) -> j_max L lam = Ok J ->
  exact_b O spin s nside reality ->
  (reality = true -> spin = 0 /\ reads_nonnegative O s nside) ->
  is_harmonic L spin reality flm -> b_inv O flm L spin s nside reality = Ok f ->
  exists w sc g,
    analysis_looped O f L N J_min lam spin spin0 s nside reality mr = Ok (w, sc) /\
    synthesis_looped O w sc L N J_min lam spin spin0 s nside reality mr = Ok g /\
    b_fwd O g L spin s nside reality
    = Ok (scale_l (fun l => if l <? Z.max (Z.abs spin) (Z.abs spin0) then 0%R
                            else (spin_ratio l spin0 * axi_total apsi aphi J_min J l)%R) flm) /\
    ((exists l m, get2 flm l m <> RtoC 0) -> g <> f).
Proof.
  intros O f flm L N lam J_min J spin spin0 s nside reality mr psi phi apsi aphi HL HN Hlam Hs Hq E Ea EJ X Hre Hh Ef.
  destruct (rt_loop O f flm L N lam J_min J spin spin0 s nside reality mr psi phi HL HN Hlam E EJ X Hre Hh Ef)
    as (w & sc & A & B & _).
  set (c := fun l => if l <? Z.max (Z.abs spin) (Z.abs spin0) then 0%R else (spin_ratio l spin0 * axi_total apsi aphi J_min J l)%R).
  rewrite (scale_ext L _ c) in B.
  2:{ apply Hh. }
  2:{ intros l Hl. apply (spin0_total_any L N lam J_min J spin spin0 psi phi apsi aphi); auto. lia. }
  destruct X as (X1 & _). destruct (X1 L HL (scale_l c flm) (scale_is L spin reality c flm Hh)) as (g & G1 & _ & G2).
  exists w, sc, g. rewrite B, G1. repeat split; auto. intros (l & q & Hne) ->.
  destruct (X1 L HL flm Hh) as (f' & F1 & _ & F2). assert (f' = f) as -> by congruence.
  rewrite F2 in G2. apply Ok_inj in G2.
  pose proof (scale_get L spin c flm l (q - (L - 1)) (proj1 Hh)) as Eg. rewrite <- G2 in Eg.
  pose proof Hh as ((_ & _ & Hsup) & _). specialize (Hsup l (q - (L - 1))).
  replace (L - 1 + (q - (L - 1))) with q in * by lia. specialize (Hsup Hne).
  assert (Ec : c l = 1%R).
  { destruct (Req_dec (c l) 1); auto. exfalso. apply Hne.
    assert (Cmult (RtoC (1 - c l)) (get2 flm l q) = RtoC 0) as E0.
    { rewrite RtoC_minus. replace (Cmult (Cminus (RtoC 1) (RtoC (c l))) (get2 flm l q))
        with (Cminus (get2 flm l q) (Cmult (RtoC (c l)) (get2 flm l q))) by ring. rewrite <- Eg. ring. }
    destruct (Ceq0_dec (get2 flm l q)) as [|Hn]; auto. exfalso. revert E0. apply Cmult_neq_0; auto.
    intros E1. apply RtoC_inj in E1. lra. }
  unfold c in Ec. destruct (Z.ltb_spec l (Z.max (Z.abs spin) (Z.abs spin0))) as [|Hge]; [lra|].
  pose proof (adm_near_looped L lam J_min J apsi aphi HL Hlam Ea EJ l ltac:(lia)) as Ht.
  destruct (ratio_gap l spin0 Hs ltac:(lia)) as [G|G]; nra.
Qed.

(*% lam = 2, L = 5, N = 3, reference spin 1: the hypotheses hold with the demo field, none of whose coefficients is zero *)
(*@E C24_never_example *)
Lemma ex_c24n : exists psi phi apsi aphi f, filters_directional 5 3 1 2 0 1 = Ok (psi, phi) /\
  filters_axisym 5 1 2 = Ok (apsi, aphi) /\ j_max 5 2 = Ok 3 /\ (3 * quad_error 2 300 < 1)%R /\
  exact_b demo 0 MW None true /\ reads_nonnegative demo MW None /\
  is_harmonic 5 0 true (demo_flm 5) /\ b_inv demo (demo_flm 5) 5 0 MW None true = Ok f /\
  get2 (demo_flm 5) 2 (5 - 1 + 1) <> RtoC 0.
Proof.
  destruct (valid_range 5 3 2 3 1 0 1) as ((apsi & aphi & Ea & _) & _ & _ & (psi & phi & E & _) & _); try demo_step.
  destruct (f5 MW true ltac:(now left)) as (f & Ef). destruct ex_near as (Q & _).
  exists psi, phi, apsi, aphi, f. repeat (split; [first [lra|demo_step]|]). demo_step.
Qed.
