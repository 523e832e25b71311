(** * Spin-lowered wavelets never reconstruct (C24) *)

From Coq Require Import ZArith Reals List Bool.
From Coquelicot Require Import Complex.
From Verif Require Import Py ModelSamples ModelFilters ModelTransforms Spec SpecTransforms SpecQuad Demo.
From Verif Require Import SpinProps.
Import ListNotations.
Open Scope Z_scope.

(** ** C24: the factor of the round trip, and its failure, without conditions on the generating function *)
(** the admissibility sum is that of the axisymmetric filters times (l+s)!/(l-s)! *)
Theorem C24_spin0_factor_in_general : forall L N lam J_min J spin spin0 psi phi apsi aphi,
  1 <= L -> 1 <= N -> (1 < lam)%R ->
  filters_directional L N J_min lam spin spin0 = Ok (psi, phi) ->
  filters_axisym L J_min lam = Ok (apsi, aphi) -> j_max L lam = Ok J ->
  forall l, 0 <= l < L ->
  dir_total L psi phi J_min J l
  = if l <? Z.max (Z.abs spin) (Z.abs spin0) then 0%R else (spin_ratio l spin0 * axi_total apsi aphi J_min J l)%R.
Proof. exact spin0_total_any. Qed.
Print Assumptions C24_spin0_factor_in_general.

(** whenever the quadrature error of C51 is below 1/3 (dilations up to 17), no field but zero is reconstructed *)
Theorem C24_spin0_never_reconstructs : forall O f flm L N lam J_min J spin spin0 s nside (reality : bool) mr psi phi apsi aphi,
  1 <= L -> 1 <= N <= L -> (1 < lam)%R -> spin0 <> 0 -> (3 * quad_error lam 300 < 1)%R ->
  filters_directional L N J_min lam spin spin0 = Ok (psi, phi) ->
  filters_axisym L J_min lam = Ok (apsi, aphi) -> j_max L lam = Ok J ->
  exact_b O spin s nside reality ->
  (reality = true -> spin = 0 /\ reads_nonnegative O s nside) ->
  is_harmonic L spin reality flm -> b_inv O flm L spin s nside reality = Ok f ->
  exists w sc g,
    analysis_looped O f L N J_min lam spin spin0 s nside reality mr = Ok (w, sc) /\
    synthesis_looped O w sc L N J_min lam spin spin0 s nside reality mr = Ok g /\
    b_fwd O g L spin s nside reality
    = Ok (scale_l (fun l => if l <? Z.max (Z.abs spin) (Z.abs spin0) then 0%R
                            else (spin_ratio l spin0 * axi_total apsi aphi J_min J l)%R) flm) /\
    ((exists l m, get2 flm l m <> RtoC 0) -> g <> f).
Proof. exact spin0_never. Qed.
Print Assumptions C24_spin0_never_reconstructs.

(** lam = 2, L = 5, N = 3, reference spin 1: the hypotheses hold with the demo field, none of whose coefficients is zero *)
Example C24_never_example : exists psi phi apsi aphi f, filters_directional 5 3 1 2 0 1 = Ok (psi, phi) /\
  filters_axisym 5 1 2 = Ok (apsi, aphi) /\ j_max 5 2 = Ok 3 /\ (3 * quad_error 2 300 < 1)%R /\
  exact_b demo 0 MW None true /\ reads_nonnegative demo MW None /\
  is_harmonic 5 0 true (demo_flm 5) /\ b_inv demo (demo_flm 5) 5 0 MW None true = Ok f /\
  get2 (demo_flm 5) 2 (5 - 1 + 1) <> RtoC 0.
Proof. exact ex_c24n. Qed.
