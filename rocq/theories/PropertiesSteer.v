(** * Directional structure of the filters: steerability and auto-correlation *)

From Coq Require Import ZArith Reals List Bool.
From Coquelicot Require Import Complex.
From Verif Require Import Py ModelSamples ModelFilters Spec SpecTransforms SpecSteer.
From Verif Require Import SteerProps.
Import ListNotations.
Open Scope Z_scope.

(** ** C52: the wavelets are steerable *)
(** a wavelet rotated by any angle is a fixed real combination of the wavelets at N equispaced angles *)
Theorem C52_steerable : forall L N lam J_min J spin spin0 psi phi, 1 <= L -> 1 <= N -> (1 < lam)%R ->
  is_filters L N J_min lam spin spin0 psi phi -> j_max L lam = Ok J ->
  forall g j l m, 0 <= j <= J -> 0 <= l < L -> Z.abs m < L ->
  rotated L psi g j l m
  = csumZ 0 N (fun k => Cmult (RtoC (steer_weight N (g - IZR k * PI / IZR N))) (rotated L psi (IZR k * PI / IZR N) j l m)).
Proof. exact steerable. Qed.
Print Assumptions C52_steerable.

Example C52_example : exists psi phi, filters_directional 5 3 1 2 0 0 = Ok (psi, phi) /\ j_max 5 2 = Ok 3 /\
  (forall g j l m, 0 <= j <= 3 -> 0 <= l < 5 -> Z.abs m < 5 ->
   rotated 5 psi g j l m
   = csumZ 0 3 (fun k => Cmult (RtoC (steer_weight 3 (g - IZR k * PI / 3))) (rotated 5 psi (IZR k * PI / 3) j l m))) /\
  exists j m, 1 <= j <= 3 /\ Z.abs m <= 4 /\ get3 psi j 4 (5 - 1 + m) <> RtoC 0.
Proof. exact ex_steer. Qed.

(** ** C53: directional auto-correlation *)
Theorem C53_component_autocorrelation : forall L N s, 1 <= L -> 1 <= N -> tiling_direction L N = Ok s ->
  forall l x, 1 <= l < L ->
  sumZ (- l) (l + 1) (fun m => Cmod (get2 s l (L - 1 + m)) ^ 2 * cos (IZR m * x))%R
  = (cos x ^ Z.to_nat (directional_exponent N l))%R.
Proof. exact component_autocorrelation. Qed.
Print Assumptions C53_component_autocorrelation.

(** the same for the wavelets: correlating a wavelet with itself rotated by x gives, degree by degree, its energy times a
   power of cos x *)
Theorem C53_wavelet_autocorrelation : forall L N lam J_min J spin spin0 psi phi, 1 <= L -> 1 <= N -> (1 < lam)%R ->
  is_filters L N J_min lam spin spin0 psi phi -> j_max L lam = Ok J ->
  forall j l x, 0 <= j <= J -> 1 <= l < L ->
  csumZ (- l) (l + 1) (fun m => Cmult (Cconj (get3 psi j l (L - 1 + m))) (rotated L psi x j l m))
  = RtoC (cos x ^ Z.to_nat (directional_exponent N l)
          * sumZ (- l) (l + 1) (fun m => Cmod (get3 psi j l (L - 1 + m)) ^ 2))%R.
Proof. exact wavelet_autocorrelation. Qed.
Print Assumptions C53_wavelet_autocorrelation.

Example C53_example : exists s, tiling_direction 5 3 = Ok s /\
  forall x, sumZ (-3) 4 (fun m => Cmod (get2 s 3 (5 - 1 + m)) ^ 2 * cos (IZR m * x))%R = (cos x ^ 2)%R.
Proof. exact ex_autocorrelation. Qed.
