(** * Linearity of every implementation, and gradients of quadratic losses *)

From Coq Require Import ZArith Reals List Bool.
From Coquelicot Require Import Complex Hierarchy Derive.
From Verif Require Import Py ModelSamples ModelFilters ModelTransforms Spec SpecTransforms SpecSteer SpecSignal SpecGrad Demo.
From Verif Require Import GradProps.
Import ListNotations.
Open Scope Z_scope.

(** ** C30: every implementation is linear *)
Theorem C30_every_analysis_linear : forall b O L N lam J_min J spin spin0 s nside reality mr psi phi T,
  1 <= L -> 1 <= N <= L -> (1 < lam)%R -> j_max L lam = Ok J -> sampling_known s nside ->
  fwd_shapes_b (lib_of b O) spin s nside reality -> linear_b (lib_of b O) spin s nside reality ->
  analyser b O L N J_min lam spin spin0 s nside reality mr psi phi T ->
  linear (scalar reality) nshape lin_nd lin_maps T.
Proof. exact every_an_lin. Qed.
Print Assumptions C30_every_analysis_linear.

Theorem C30_every_synthesis_linear : forall b O L N lam J_min J spin spin0 s nside reality mr psi phi T,
  1 <= L -> 1 <= N <= L -> (1 < lam)%R -> j_max L lam = Ok J ->
  fwd_shapes_b (lib_of b O) spin s nside reality -> linear_b (lib_of b O) spin s nside reality ->
  synthesiser b O L N J_min lam spin spin0 s nside reality mr psi phi T ->
  linear (scalar reality) maps_shape lin_maps lin_nd T.
Proof. exact every_sy_lin. Qed.
Print Assumptions C30_every_synthesis_linear.

(** ** C68: losses are quadratic along every line, and their derivatives *)
(** [x] and [d] are the argument of the transform and a direction, [g] and [h] their transforms, [y] the target *)
Theorem C68_synthesis_loss : forall b O L N lam J_min J spin spin0 s nside reality mr psi phi T x d y g h,
  1 <= L -> 1 <= N <= L -> (1 < lam)%R -> j_max L lam = Ok J ->
  fwd_shapes_b (lib_of b O) spin s nside reality -> linear_b (lib_of b O) spin s nside reality ->
  synthesiser b O L N J_min lam spin spin0 s nside reality mr psi phi T ->
  maps_shape x = maps_shape d -> T x = Ok g -> T d = Ok h ->
  (forall t : R, exists k, T (lin_maps (RtoC 1) (RtoC t) x d) = Ok k /\
     sq_err k y = (sq_err g y + t * sq_slope g y h + t ^ 2 * sq_norm g h)%R) /\ (0 <= sq_norm g h)%R.
Proof. exact sy_loss. Qed.
Print Assumptions C68_synthesis_loss.

Theorem C68_synthesis_gradient : forall b O L N lam J_min J spin spin0 s nside reality mr psi phi T x d y g h,
  1 <= L -> 1 <= N <= L -> (1 < lam)%R -> j_max L lam = Ok J ->
  fwd_shapes_b (lib_of b O) spin s nside reality -> linear_b (lib_of b O) spin s nside reality ->
  synthesiser b O L N J_min lam spin spin0 s nside reality mr psi phi T ->
  maps_shape x = maps_shape d -> T x = Ok g -> T d = Ok h ->
  let F t := loss (fun k => sq_err k y) (T (lin_maps (RtoC 1) (RtoC t) x d)) in
  is_derive F 0%R (sq_slope g y h) /\
  (forall e, e <> 0 -> (F e - F (- e)) / (2 * e) = sq_slope g y h)%R.
Proof. exact sy_grad. Qed.
Print Assumptions C68_synthesis_gradient.

Theorem C68_analysis_loss : forall b O L N lam J_min J spin spin0 s nside reality mr psi phi T f d y g h,
  1 <= L -> 1 <= N <= L -> (1 < lam)%R -> j_max L lam = Ok J -> sampling_known s nside ->
  fwd_shapes_b (lib_of b O) spin s nside reality -> linear_b (lib_of b O) spin s nside reality ->
  analyser b O L N J_min lam spin spin0 s nside reality mr psi phi T ->
  nshape f = nshape d -> T f = Ok g -> T d = Ok h ->
  (forall t : R, exists k, T (lin_nd (RtoC 1) (RtoC t) f d) = Ok k /\
     maps_err k y = (maps_err g y + t * maps_slope g y h + t ^ 2 * maps_norm g y h)%R) /\ (0 <= maps_norm g y h)%R.
Proof. exact an_loss. Qed.
Print Assumptions C68_analysis_loss.

Theorem C68_analysis_gradient : forall b O L N lam J_min J spin spin0 s nside reality mr psi phi T f d y g h,
  1 <= L -> 1 <= N <= L -> (1 < lam)%R -> j_max L lam = Ok J -> sampling_known s nside ->
  fwd_shapes_b (lib_of b O) spin s nside reality -> linear_b (lib_of b O) spin s nside reality ->
  analyser b O L N J_min lam spin spin0 s nside reality mr psi phi T ->
  nshape f = nshape d -> T f = Ok g -> T d = Ok h ->
  let F t := loss (fun k => maps_err k y) (T (lin_nd (RtoC 1) (RtoC t) f d)) in
  is_derive F 0%R (maps_slope g y h) /\
  (forall e, e <> 0 -> (F e - F (- e)) / (2 * e) = maps_slope g y h)%R.
Proof. exact an_grad. Qed.
Print Assumptions C68_analysis_gradient.

(** with every implementation: the demo library is linear, and both transforms accept the field of demo coefficients
    and its analysis *)
Example C68_example : forall b, exists psi phi T U f w sc g,
  linear_b (lib_of b demo) 0 MW None true /\ fwd_shapes_b (lib_of b demo) 0 MW None true /\ sampling_known MW None /\
  analyser b demo 5 3 0 2 0 0 MW None true true psi phi T /\ synthesiser b demo 5 3 0 2 0 0 MW None true true psi phi U /\
  b_inv (lib_of b demo) (demo_flm 5) 5 0 MW None true = Ok f /\ T f = Ok (w, sc) /\ U (w, sc) = Ok g /\
  b_fwd (lib_of b demo) g 5 0 MW None true = Ok (demo_flm 5).
Proof. exact ex_c68. Qed.
