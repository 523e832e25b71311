(** * Wavelets of different scales are dilations of one another (C84) *)

From Coq Require Import ZArith Reals List Bool.
From Coquelicot Require Import Complex.
From Verif Require Import Py ModelSamples ModelFilters Spec.
From Verif Require Import DilationProps.
Import ListNotations.
Open Scope Z_scope.

(** ** C84: filters of scale j + s at degree lam^s l are those of scale j at degree l *)
(** L and L' are the band-limits for which the two sets of filters are built; they may be equal *)
Theorem C84_generating_function : forall L L' lam n J J' k k', 1 <= L -> 1 <= L' -> (1 < lam)%R -> 3 <= n ->
  k_lam L lam n = Ok k -> k_lam L' lam n = Ok k' -> j_max L lam = Ok J -> j_max L' lam = Ok J' ->
  forall s j l l', 0 <= j <= J + 1 -> 0 <= j + s <= J' + 1 -> 0 <= l < L -> 0 <= l' < L' ->
  IZR l' = (powerRZ lam s * IZR l)%R -> get2 k' (j + s) l' = get2 k j l.
Proof. exact gen_dilated. Qed.
Print Assumptions C84_generating_function.

Theorem C84_scaling_filter : forall L L' lam J_min psi phi psi' phi' s, 1 <= L -> 1 <= L' -> (1 < lam)%R ->
  filters_axisym L J_min lam = Ok (psi, phi) \/ filters_axisym_vectorised L J_min lam = Ok (psi, phi) \/
  filters_axisym_jax L J_min lam = Ok (psi, phi) ->
  filters_axisym L' (J_min + s) lam = Ok (psi', phi') \/ filters_axisym_vectorised L' (J_min + s) lam = Ok (psi', phi') \/
  filters_axisym_jax L' (J_min + s) lam = Ok (psi', phi') ->
  forall l l', 0 <= l < L -> 0 <= l' < L' -> IZR l' = (powerRZ lam s * IZR l)%R -> get1 phi' l' = get1 phi l.
Proof. exact scal_dilated. Qed.
Print Assumptions C84_scaling_filter.

Theorem C84_wavelet_filters : forall L L' lam J_min J_min' J J' psi phi psi' phi', 1 <= L -> 1 <= L' -> (1 < lam)%R ->
  filters_axisym_vectorised L J_min lam = Ok (psi, phi) \/ filters_axisym_jax L J_min lam = Ok (psi, phi) ->
  filters_axisym_vectorised L' J_min' lam = Ok (psi', phi') \/ filters_axisym_jax L' J_min' lam = Ok (psi', phi') ->
  j_max L lam = Ok J -> j_max L' lam = Ok J' ->
  forall s j l l', 0 <= j <= J -> 0 <= j + s <= J' -> 0 <= l < L -> 0 <= l' < L' ->
  IZR l' = (powerRZ lam s * IZR l)%R -> get2 psi' (j + s) l' = get2 psi j l.
Proof. exact wav_dilated. Qed.
Print Assumptions C84_wavelet_filters.

(** the looped filters, where the generating function does not decrease from scale j to j + 1 *)
Theorem C84_wavelet_filters_looped : forall L L' lam J_min J_min' J J' psi phi psi' phi' k, 1 <= L -> 1 <= L' -> (1 < lam)%R ->
  filters_axisym L J_min lam = Ok (psi, phi) -> filters_axisym L' J_min' lam = Ok (psi', phi') ->
  j_max L lam = Ok J -> j_max L' lam = Ok J' -> k_lam L lam 300 = Ok k ->
  forall s j l l', J_min <= j <= J -> J_min' <= j + s <= J' -> 0 <= l < L -> 0 <= l' < L' ->
  IZR l' = (powerRZ lam s * IZR l)%R -> (get2 k j l <= get2 k (j + 1) l)%R -> get2 psi' (j + s) l' = get2 psi j l.
Proof. exact wav_dilated_looped. Qed.
Print Assumptions C84_wavelet_filters_looped.

(** the directional filters, up to their factors sqrt(2l+1): the directional component does not depend on the degree from N on *)
Theorem C84_directional_filters : forall L L' N lam J_min J_min' J J' spin psi phi psi' phi', 1 <= L -> 1 <= L' -> 1 <= N -> (1 < lam)%R ->
  filters_directional_vectorised L N J_min lam spin 0 = Ok (psi, phi) \/ filters_directional_jax L N J_min lam spin 0 = Ok (psi, phi) ->
  filters_directional_vectorised L' N J_min' lam spin 0 = Ok (psi', phi') \/ filters_directional_jax L' N J_min' lam spin 0 = Ok (psi', phi') ->
  j_max L lam = Ok J -> j_max L' lam = Ok J' ->
  forall s j l l' m, 0 <= j <= J -> 0 <= j + s <= J' -> N <= l < L -> N <= l' < L' -> Z.abs spin <= l -> Z.abs spin <= l' ->
  Z.abs m < L -> Z.abs m < L' -> IZR l' = (powerRZ lam s * IZR l)%R ->
  Cmult (RtoC (sqrt (2 * IZR l + 1))) (get3 psi' (j + s) l' (L' - 1 + m))
  = Cmult (RtoC (sqrt (2 * IZR l' + 1))) (get3 psi j l (L - 1 + m)).
Proof. exact dir_dilated. Qed.
Print Assumptions C84_directional_filters.

(** lam = 2: degree 6 at scale 3 (L = 9, J = 4) against degree 3 at scale 2 (L = 5, J = 3) *)
Example C84_example : exists psi phi psi' phi', j_max 5 2 = Ok 3 /\ j_max 9 2 = Ok 4 /\
  filters_axisym_vectorised 5 1 2 = Ok (psi, phi) /\ filters_axisym_vectorised 9 2 2 = Ok (psi', phi') /\
  get2 psi' 3 6 = get2 psi 2 3 /\ get1 phi' 2 = get1 phi 1 /\ (0 < get2 psi 1 2)%R /\ get2 psi' 2 4 = get2 psi 1 2.
Proof. exact ex_c84. Qed.
