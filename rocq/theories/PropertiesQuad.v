(** * Accuracy of the quadrature: distance to the documented integrals *)

From Coq Require Import ZArith Reals List Bool.
From Coquelicot Require Import Coquelicot.
From Verif Require Import Py ModelSamples ModelFilters ModelTransforms Spec SpecTransforms SpecQuad Demo.
From Verif Require Import QuadProps.
Import ListNotations.
Open Scope Z_scope.

(** ** C50: the generating function approximates the documented integrals *)
Theorem C50_generating_function_accuracy : forall L lam n k j l, 1 <= L -> (1 < lam)%R -> 12 <= n ->
  k_lam L lam n = Ok k -> 0 <= j < rows k -> 0 <= l < L ->
  (Rabs (get2 k j l - generating lam (IZR l / powerRZ lam j)) <= quad_error lam n)%R.
Proof. exact k_accuracy. Qed.
Print Assumptions C50_generating_function_accuracy.

Theorem C50_generating_function_converges : forall lam tol, (1 < lam)%R -> (0 < tol)%R ->
  exists n0, forall n L k j l, n0 <= n -> 1 <= L ->
    k_lam L lam n = Ok k -> 0 <= j < rows k -> 0 <= l < L ->
    (Rabs (get2 k j l - generating lam (IZR l / powerRZ lam j)) < tol)%R.
Proof. exact k_converges. Qed.
Print Assumptions C50_generating_function_converges.

Theorem C50_vectorised_filters_accuracy : forall L lam J_min J psi phi, 1 <= L -> (1 < lam)%R ->
  filters_axisym_vectorised L J_min lam = Ok (psi, phi) -> j_max L lam = Ok J ->
  forall l, 0 <= l < L ->
    (Rabs (get1 phi l ^ 2 - generating lam (IZR l / powerRZ lam J_min)) <= quad_error lam 300)%R /\
    forall j, 0 <= j <= J ->
      (Rabs (get2 psi j l ^ 2 - (generating lam (IZR l / powerRZ lam (j + 1)) - generating lam (IZR l / powerRZ lam j)))
       <= 2 * quad_error lam 300)%R.
Proof. exact vec_accuracy. Qed.
Print Assumptions C50_vectorised_filters_accuracy.

Theorem C50_looped_filters_accuracy : forall L lam J_min J psi phi, 1 <= L -> (1 < lam)%R ->
  filters_axisym L J_min lam = Ok (psi, phi) -> j_max L lam = Ok J ->
  forall l, 0 <= l < L ->
    (Rabs (get1 phi l ^ 2 - generating lam (IZR l / powerRZ lam J_min)) <= quad_error lam 300)%R /\
    forall j, J_min <= j <= J ->
      (Rabs (get2 psi j l ^ 2 - (generating lam (IZR l / powerRZ lam (j + 1)) - generating lam (IZR l / powerRZ lam j)))
       <= 2 * quad_error lam 300)%R.
Proof. exact loop_accuracy. Qed.
Print Assumptions C50_looped_filters_accuracy.

Example C50_example : exists k, k_lam 5 2 300 = Ok k /\ rows k = 5 /\
  (Rabs (get2 k 2 3 - generating 2 (3 / 4)) <= 1 / 200)%R /\ (0 < generating 2 (3 / 4) < 1)%R.
Proof. exact ex_accuracy. Qed.

(** ** C51: the filters are admissible up to the quadrature error *)
Theorem C51_admissibility_within_quadrature_error : forall L lam J_min J psi phi, 1 <= L -> (1 < lam)%R ->
  filters_axisym_vectorised L J_min lam = Ok (psi, phi) -> j_max L lam = Ok J ->
  forall l, 0 <= l < L -> (1 <= axi_total psi phi J_min J l <= 1 + quad_error lam 300)%R.
Proof. exact adm_near. Qed.
Print Assumptions C51_admissibility_within_quadrature_error.

Theorem C51_admissibility_looped_within_quadrature_error : forall L lam J_min J psi phi, 1 <= L -> (1 < lam)%R ->
  filters_axisym L J_min lam = Ok (psi, phi) -> j_max L lam = Ok J ->
  forall l, 0 <= l < L -> (1 <= axi_total psi phi J_min J l <= 1 + 3 * quad_error lam 300)%R.
Proof. exact adm_near_looped. Qed.
Print Assumptions C51_admissibility_looped_within_quadrature_error.

Theorem C51_directional_admissibility_within_quadrature_error : forall L N lam J_min J spin psi phi,
  1 <= L -> 1 <= N -> (1 < lam)%R ->
  is_filters L N J_min lam spin 0 psi phi -> j_max L lam = Ok J ->
  forall l, Z.abs spin <= l < L -> (1 <= dir_total L psi phi J_min J l <= 1 + 3 * quad_error lam 300)%R.
Proof. exact dir_near. Qed.
Print Assumptions C51_directional_admissibility_within_quadrature_error.

(** coefficients reconstructed from exact wavelet coefficients *)
Theorem C51_reconstruction_within_quadrature_error : forall L N lam J_min J spin mr psi phi flm sz Ls,
  1 <= L -> 1 <= N <= L -> (1 < lam)%R ->
  is_filters L N J_min lam spin 0 psi phi -> j_max L lam = Ok J ->
  (forall j, LN_j L j N lam mr = Ok (sz j)) -> scal_bandlimit L J_min lam mr = Ok Ls ->
  harmonic L spin flm ->
  coefs_near L (3 * quad_error lam 300)
    (synthesised L J_min J psi phi sz (wcoefs L psi flm sz) Ls (scaling_coefs L phi flm Ls)) flm.
Proof. exact recon_near. Qed.
Print Assumptions C51_reconstruction_within_quadrature_error.

(** synthesis after analysis returns a field whose coefficients are that close to those of the input *)
Theorem C51_round_trip_vectorised : forall O f flm L N lam J_min spin s nside reality mr psi phi,
  1 <= L -> 1 <= N <= L -> (1 < lam)%R ->
  filters_directional_vectorised L N J_min lam spin 0 = Ok (psi, phi) ->
  exact_b O spin s nside reality ->
  is_harmonic L spin reality flm -> b_inv O flm L spin s nside reality = Ok f ->
  exists w sc glm,
    analysis O f L N J_min lam spin 0 s nside reality mr false = Ok (w, sc) /\
    synthesis O w sc L N J_min lam spin 0 s nside reality mr = b_inv O glm L spin s nside reality /\
    coefs_near L (3 * quad_error lam 300) glm flm.
Proof. exact rt_near_vec. Qed.
Print Assumptions C51_round_trip_vectorised.

Theorem C51_round_trip_looped : forall O f flm L N lam J_min spin s nside (reality : bool) mr psi phi,
  1 <= L -> 1 <= N <= L -> (1 < lam)%R ->
  filters_directional L N J_min lam spin 0 = Ok (psi, phi) ->
  exact_b O spin s nside reality ->
  (reality = true -> spin = 0 /\ reads_nonnegative O s nside) ->
  is_harmonic L spin reality flm -> b_inv O flm L spin s nside reality = Ok f ->
  exists w sc glm,
    analysis_looped O f L N J_min lam spin 0 s nside reality mr = Ok (w, sc) /\
    synthesis_looped O w sc L N J_min lam spin 0 s nside reality mr = b_inv O glm L spin s nside reality /\
    coefs_near L (3 * quad_error lam 300) glm flm.
Proof. exact rt_near_loop. Qed.
Print Assumptions C51_round_trip_looped.

Theorem C51_round_trip_jax : forall O f flm L N lam J_min spin s nside reality psi phi pa ps qa qs,
  1 <= L -> 1 <= N <= L -> (1 < lam)%R ->
  is_filters L N J_min lam spin 0 psi phi ->
  exact_j O spin s nside reality ->
  (scal_bandlimit L J_min lam true = Ok 1 -> one_point spin reality (fun y => j_fwd O y 1 spin nside s reality)) ->
  generate_wigner_precomputes L N J_min lam s nside false reality = Ok qa -> (pa = None \/ pa = Some qa) ->
  generate_wigner_precomputes L N J_min lam s nside true reality = Ok qs -> (ps = None \/ ps = Some qs) ->
  is_harmonic L spin reality flm -> j_inv O flm L spin nside s reality = Ok f ->
  exists w sc glm,
    jax_analysis O f L N J_min lam spin s nside reality (Some (psi, phi)) pa = Ok (w, sc) /\
    jax_synthesis O w sc L N J_min lam spin s nside reality (Some (psi, phi)) ps = j_inv O glm L spin nside s reality /\
    coefs_near L (3 * quad_error lam 300) glm flm.
Proof. exact rt_near_jax. Qed.
Print Assumptions C51_round_trip_jax.

Theorem C51_round_trip_precompute : forall O f flm L N lam J_min s nside reality psi phi pa ps,
  1 <= L -> 1 <= N <= L -> (1 < lam)%R ->
  is_filters L N J_min lam 0 0 psi phi ->
  exact_p O s nside reality ->
  (scal_bandlimit L J_min lam true = Ok 1 ->
   one_point 0 reality (fun y => p_fwd O y (SKern 1 0 reality s nside true) 1 s reality 0 nside)) ->
  generate_full_precomputes L N J_min lam s nside false reality false = Ok pa ->
  generate_full_precomputes L N J_min lam s nside true reality false = Ok ps ->
  is_harmonic L 0 reality flm -> p_inv O flm (SKern L 0 reality s nside false) L s reality 0 nside = Ok f ->
  exists w sc glm,
    pre_analysis O f L N J_min lam 0 s nside reality (Some (psi, phi)) (Some pa) = Ok (w, sc) /\
    pre_synthesis O w sc L N J_min lam 0 s nside reality (Some (psi, phi)) (Some ps)
    = p_inv O glm (SKern L 0 reality s nside false) L s reality 0 nside /\
    coefs_near L (3 * quad_error lam 300) glm flm.
Proof. exact rt_near_pre. Qed.
Print Assumptions C51_round_trip_precompute.

(** for lam = 2 the allowed deviation is below 1/200, at every band-limit; L = 100 reaches scale J = 7 *)
Example C51_example : (quad_error 2 300 <= 1 / 200)%R /\ exists psi phi, filters_axisym_vectorised 100 0 2 = Ok (psi, phi) /\
  forall l, 0 <= l < 100 -> (1 <= axi_total psi phi 0 7 l <= 1 + 1 / 200)%R.
Proof. exact ex_near. Qed.

(** the hypotheses of the round trips are met by the toy library of Demo.v; l = 5 lies in the lower half of its octave *)
Example C51_round_trip_example : exists f w sc glm, b_inv demo (demo_flm 7) 7 0 MW None true = Ok f /\
  analysis demo f 7 3 1 2 0 0 MW None true true false = Ok (w, sc) /\
  synthesis demo w sc 7 3 1 2 0 0 MW None true true = b_inv demo glm 7 0 MW None true /\
  coefs_near 7 (3 * quad_error 2 300) glm (demo_flm 7) /\ get2 (demo_flm 7) 5 (7 - 1 + 1) <> RtoC 0.
Proof. exact ex_rt_near. Qed.
