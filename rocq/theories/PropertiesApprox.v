(** * Transforms that invert each other only approximately *)

From Coq Require Import ZArith Reals List Bool.
From Coquelicot Require Import Complex.
From Verif Require Import Py ModelSamples ModelFilters ModelTransforms Spec SpecTransforms SpecSteer SpecSignal SpecApprox Demo.
From Verif Require Import ApproxProps.
Import ListNotations.
Open Scope Z_scope.

(** ** C85: the round trip amplifies no error of the transforms *)
(** with every implementation; f is any map, flm the coefficients that the forward transform reads from it *)
Theorem C85_round_trip : forall eps D b O f flm L N lam J_min J spin spin0 s nside reality mr psi phi w sc g,
  1 <= L -> 1 <= N <= L -> (1 < lam)%R -> j_max L lam = Ok J -> (0 < D)%R ->
  nearly_exact_lib eps b O L N J_min lam spin s nside reality ->
  (forall l, Z.abs spin <= l < L -> (dir_total L psi phi J_min J l <= D)%R) ->
  b_fwd (lib_of b O) f L spin s nside reality = Ok flm -> is_harmonic L spin reality flm ->
  analysed b O f L N J_min lam spin spin0 s nside reality mr psi phi w sc ->
  resynthesised b O w sc L N J_min lam spin spin0 s nside reality mr psi phi g ->
  exists glm, is_harmonic L spin reality glm /\ b_inv (lib_of b O) glm L spin s nside reality = Ok g /\
    (energy2 (sub2 glm (scale_l (dir_total L psi phi J_min J) flm)) <= (eps * D) ^ 2 * energy2 flm)%R.
Proof. exact near_trip. Qed.
Print Assumptions C85_round_trip.

(** f is the inverse transform of flm: the errors of the three steps add up *)
Theorem C85_field : forall eps b O f flm L N lam J_min J spin spin0 s nside reality mr psi phi w sc g,
  1 <= L -> 1 <= N <= L -> (1 < lam)%R -> j_max L lam = Ok J -> (0 < eps)%R ->
  nearly_exact_lib eps b O L N J_min lam spin s nside reality ->
  (forall l, Z.abs spin <= l < L -> dir_total L psi phi J_min J l = 1%R) ->
  is_harmonic L spin reality flm -> b_inv (lib_of b O) flm L spin s nside reality = Ok f ->
  analysed b O f L N J_min lam spin spin0 s nside reality mr psi phi w sc ->
  resynthesised b O w sc L N J_min lam spin spin0 s nside reality mr psi phi g ->
  exists glm, is_harmonic L spin reality glm /\ b_inv (lib_of b O) glm L spin s nside reality = Ok g /\
    (energy2 (sub2 glm flm) <= (eps * (2 + eps)) ^ 2 * energy2 flm)%R.
Proof. exact near_field. Qed.
Print Assumptions C85_field.

(** the base transforms run on such a field, in every sampling including HEALPix *)
Theorem C85_base : forall eps O flm L N lam J_min J spin s nside reality mr psi phi,
  1 <= L -> 1 <= N <= L -> (1 < lam)%R -> j_max L lam = Ok J -> (0 < eps)%R ->
  filters_directional_vectorised L N J_min lam spin 0 = Ok (psi, phi) ->
  (forall l, Z.abs spin <= l < L -> dir_total L psi phi J_min J l = 1%R) ->
  nearly_exact eps O L N spin s nside reality -> is_harmonic L spin reality flm ->
  exists f w sc g glm, b_inv O flm L spin s nside reality = Ok f /\
    analysis O f L N J_min lam spin 0 s nside reality mr false = Ok (w, sc) /\
    synthesis O w sc L N J_min lam spin 0 s nside reality mr = Ok g /\
    is_harmonic L spin reality glm /\ b_inv O glm L spin s nside reality = Ok g /\
    (energy2 (sub2 glm flm) <= (eps * (2 + eps)) ^ 2 * energy2 flm)%R.
Proof. exact near_base. Qed.
Print Assumptions C85_base.

(** every other implementation runs on it too, in the samplings that it supports *)
Theorem C85_every : forall eps b O flm L N lam J_min J spin s nside reality mr psi phi,
  1 <= L -> 1 <= N <= L -> (1 < lam)%R -> j_max L lam = Ok J -> (0 < eps)%R ->
  filters_directional_vectorised L N J_min lam spin 0 = Ok (psi, phi) ->
  (forall l, Z.abs spin <= l < L -> dir_total L psi phi J_min J l = 1%R) ->
  nearly_exact_lib eps b O L N J_min lam spin s nside reality -> usable b O spin s nside reality mr ->
  is_harmonic L spin reality flm ->
  exists f w sc g glm, b_inv (lib_of b O) flm L spin s nside reality = Ok f /\
    analysed b O f L N J_min lam spin 0 s nside reality mr psi phi w sc /\
    resynthesised b O w sc L N J_min lam spin 0 s nside reality mr psi phi g /\
    is_harmonic L spin reality glm /\ b_inv (lib_of b O) glm L spin s nside reality = Ok g /\
    (energy2 (sub2 glm flm) <= (eps * (2 + eps)) ^ 2 * energy2 flm)%R.
Proof. exact near_every. Qed.
Print Assumptions C85_every.

(** transforms with a sampling theorem are the case without an error *)
Theorem C85_exact : forall eps b O L N J_min lam spin s nside reality,
  exact_lib b O L J_min lam spin s nside reality -> nearly_exact_lib eps b O L N J_min lam spin s nside reality.
Proof. exact exact_near. Qed.
Print Assumptions C85_exact.

(** HEALPix with nside = 2 and a library that is a tenth off *)
Example C85_example : exists O psi phi f w sc g glm, nearly_exact (1 / 10) O 5 3 0 HEALPIX (Some 2) false /\
  nearly_exact_lib (1 / 10) Base O 5 3 0 2 0 HEALPIX (Some 2) false /\
  filters_directional_vectorised 5 3 0 2 0 0 = Ok (psi, phi) /\
  (forall l, 0 <= l < 5 -> dir_total 5 psi phi 0 3 l = 1%R) /\ j_max 5 2 = Ok 3 /\
  is_harmonic 5 0 false (demo_flm 5) /\ b_inv O (demo_flm 5) 5 0 HEALPIX (Some 2) false = Ok f /\
  nshape f = [48] /\ b_fwd O f 5 0 HEALPIX (Some 2) false <> Ok (demo_flm 5) /\
  analysis O f 5 3 0 2 0 0 HEALPIX (Some 2) false true false = Ok (w, sc) /\
  synthesis O w sc 5 3 0 2 0 0 HEALPIX (Some 2) false true = Ok g /\
  b_inv O glm 5 0 HEALPIX (Some 2) false = Ok g /\
  (energy2 (sub2 glm (demo_flm 5)) <= (21 / 100) ^ 2 * energy2 (demo_flm 5))%R.
Proof. exact ex_c85. Qed.

(** the same library behind the base, JAX, precompute and Torch transforms *)
Example C85_example_every : exists O psi phi, filters_directional_vectorised 5 3 1 2 0 0 = Ok (psi, phi) /\
  (forall l, 0 <= l < 5 -> dir_total 5 psi phi 1 3 l = 1%R) /\
  forall b, In b [Base; Jax; Precompute; Torch] -> exists f w sc g glm,
    nearly_exact_lib (1 / 10) b O 5 3 1 2 0 HEALPIX (Some 2) false /\ usable b O 0 HEALPIX (Some 2) false true /\
    b_inv (lib_of b O) (demo_flm 5) 5 0 HEALPIX (Some 2) false = Ok f /\
    b_fwd (lib_of b O) f 5 0 HEALPIX (Some 2) false <> Ok (demo_flm 5) /\
    analysed b O f 5 3 1 2 0 0 HEALPIX (Some 2) false true psi phi w sc /\
    resynthesised b O w sc 5 3 1 2 0 0 HEALPIX (Some 2) false true psi phi g /\
    b_inv (lib_of b O) glm 5 0 HEALPIX (Some 2) false = Ok g /\
    (energy2 (sub2 glm (demo_flm 5)) <= (21 / 100) ^ 2 * energy2 (demo_flm 5))%R.
Proof. exact ex_c85_every. Qed.
