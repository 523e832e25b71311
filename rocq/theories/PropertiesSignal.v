(** * Properties of the transforms as maps between signals *)

From Coq Require Import ZArith Reals List Bool.
From Coquelicot Require Import Complex.
From Verif Require Import Py ModelSamples ModelFilters ModelTransforms Spec SpecTransforms SpecSteer SpecSignal Demo.
From Verif Require Import SignalProps.
Import ListNotations.
Open Scope Z_scope.

(** ** The coefficients of analysed maps can be measured *)
(** [f] is the band-limited field with coefficients [flm]; [W] and [S] are what the library's
    own forward transforms read from the maps *)
Theorem C54_analysis_is_measurable : forall b O f flm L N lam J_min J spin spin0 s nside reality mr psi phi w sc,
  1 <= L -> 1 <= N <= L -> (1 < lam)%R -> j_max L lam = Ok J -> exact_lib b O L J_min lam spin s nside reality ->
  is_harmonic L spin reality flm -> b_inv (lib_of b O) flm L spin s nside reality = Ok f ->
  analysed b O f L N J_min lam spin spin0 s nside reality mr psi phi w sc ->
  exists W S, measured (lib_of b O) L N J_min J lam spin s nside reality mr w sc W S.
Proof. exact an_measurable. Qed.
Print Assumptions C54_analysis_is_measurable.

Theorem C54_synthesis_is_measurable : forall b O L N lam J_min J spin spin0 s nside reality mr psi phi w sc W S g,
  1 <= L -> 1 <= N <= L -> (1 < lam)%R -> j_max L lam = Ok J -> exact_lib b O L J_min lam spin s nside reality ->
  measured (lib_of b O) L N J_min J lam spin s nside reality mr w sc W S ->
  resynthesised b O w sc L N J_min lam spin spin0 s nside reality mr psi phi g ->
  exists glm, is_harmonic L spin reality glm /\ b_inv (lib_of b O) glm L spin s nside reality = Ok g /\
    b_fwd (lib_of b O) g L spin s nside reality = Ok glm.
Proof. exact rs_measurable. Qed.
Print Assumptions C54_synthesis_is_measurable.

(** ** C54: synthesis is the adjoint of analysis *)
Theorem C54_adjoint : forall b O f flm g glm L N lam J_min J spin spin0 s nside reality mr psi phi w sc W S v tc V T,
  1 <= L -> 1 <= N <= L -> (1 < lam)%R -> j_max L lam = Ok J -> exact_lib b O L J_min lam spin s nside reality ->
  is_harmonic L spin reality flm -> b_inv (lib_of b O) flm L spin s nside reality = Ok f ->
  analysed b O f L N J_min lam spin spin0 s nside reality mr psi phi w sc ->
  measured (lib_of b O) L N J_min J lam spin s nside reality mr w sc W S ->
  measured (lib_of b O) L N J_min J lam spin s nside reality mr v tc V T ->
  resynthesised b O v tc L N J_min lam spin spin0 s nside reality mr psi phi g ->
  b_fwd (lib_of b O) g L spin s nside reality = Ok glm ->
  inner J_min J W S V T = inner2 flm glm.
Proof. exact adjoint. Qed.
Print Assumptions C54_adjoint.

(** ** C31: energy of the maps returned by analysis *)
Theorem C31_analysis_energy : forall b O f flm L N lam J_min J spin spin0 s nside reality mr psi phi w sc W S,
  1 <= L -> 1 <= N <= L -> (1 < lam)%R -> j_max L lam = Ok J -> exact_lib b O L J_min lam spin s nside reality ->
  is_harmonic L spin reality flm -> b_inv (lib_of b O) flm L spin s nside reality = Ok f ->
  analysed b O f L N J_min lam spin spin0 s nside reality mr psi phi w sc ->
  measured (lib_of b O) L N J_min J lam spin s nside reality mr w sc W S ->
  total_energy J_min J W S = sumZ 0 L (fun l => (dir_total L psi phi J_min J l *
                       sumZ 0 (2 * L - 1) (fun k => Cmod (get2 flm l k) ^ 2))%R) /\
  ((forall l, Z.abs spin <= l < L -> dir_total L psi phi J_min J l = 1%R) -> total_energy J_min J W S = energy2 flm).
Proof. exact an_energy. Qed.
Print Assumptions C31_analysis_energy.

(** ** C55: synthesis and analysis project orthogonally onto the coefficients of fields *)
(** [g] is synthesised from arbitrary maps (v, tc) and analysed again, giving (w, sc): what is
    lost is orthogonal to the coefficients of every field, so energies add up *)
Theorem C55_orthogonal_projection : forall b O g glm L N lam J_min J spin spin0 s nside reality mr psi phi v tc V T w sc W S,
  1 <= L -> 1 <= N <= L -> (1 < lam)%R -> j_max L lam = Ok J -> exact_lib b O L J_min lam spin s nside reality ->
  (forall l, Z.abs spin <= l < L -> dir_total L psi phi J_min J l = 1%R) ->
  measured (lib_of b O) L N J_min J lam spin s nside reality mr v tc V T ->
  resynthesised b O v tc L N J_min lam spin spin0 s nside reality mr psi phi g ->
  b_fwd (lib_of b O) g L spin s nside reality = Ok glm ->
  analysed b O g L N J_min lam spin spin0 s nside reality mr psi phi w sc ->
  measured (lib_of b O) L N J_min J lam spin s nside reality mr w sc W S ->
  (forall f flm u rc U R, is_harmonic L spin reality flm -> b_inv (lib_of b O) flm L spin s nside reality = Ok f ->
     analysed b O f L N J_min lam spin spin0 s nside reality mr psi phi u rc ->
     measured (lib_of b O) L N J_min J lam spin s nside reality mr u rc U R ->
     inner J_min J U R (fun j => sub3 (V j) (W j)) (sub2 T S) = RtoC 0) /\
  (total_energy J_min J V T
   = energy2 glm + total_energy J_min J (fun j => sub3 (V j) (W j)) (sub2 T S))%R /\
  (energy2 glm <= total_energy J_min J V T)%R /\ total_energy J_min J W S = energy2 glm.
Proof. exact projection. Qed.
Print Assumptions C55_orthogonal_projection.

(** [C54_every_field] and [C54_every_decomposition] below show that the fields and the maps of C54 and C55 range
    over all coefficients, with every implementation *)
Theorem C54_every_field : forall b O L N lam J_min J spin s nside reality mr flm,
  1 <= L -> 1 <= N <= L -> (1 < lam)%R -> j_max L lam = Ok J -> 0 <= J_min < J ->
  exact_lib b O L J_min lam spin s nside reality -> usable b O spin s nside reality mr ->
  is_harmonic L spin reality flm ->
  exists f psi phi w sc, b_inv (lib_of b O) flm L spin s nside reality = Ok f /\
    analysed b O f L N J_min lam spin 0 s nside reality mr psi phi w sc.
Proof. exact every_field. Qed.
Print Assumptions C54_every_field.

Theorem C54_every_decomposition : forall b O L N lam J_min J spin s nside reality mr W S,
  1 <= L -> 1 <= N <= L -> (1 < lam)%R -> j_max L lam = Ok J -> 0 <= J_min < J ->
  exact_lib b O L J_min lam spin s nside reality -> usable b O spin s nside reality mr ->
  (forall Ls, scal_bandlimit L J_min lam mr = Ok Ls -> is_harmonic Ls spin reality S) ->
  (forall j Lj Nj L0j, J_min <= j <= J -> LN_j L j N lam mr = Ok (Lj, Nj, L0j) -> is_wigner Lj Nj L0j reality (W j)) ->
  exists w sc psi phi g, measured (lib_of b O) L N J_min J lam spin s nside reality mr w sc W S /\
    resynthesised b O w sc L N J_min lam spin 0 s nside reality mr psi phi g.
Proof. exact every_deco. Qed.
Print Assumptions C54_every_decomposition.

(** ** C60: every backend is the vectorised base transform over its own entry points *)
Theorem C60_analysis : forall b O f flm L N lam J_min J spin s nside reality mr psi phi w sc,
  1 <= L -> 1 <= N <= L -> (1 < lam)%R -> j_max L lam = Ok J ->
  filters_directional_vectorised L N J_min lam spin 0 = Ok (psi, phi) ->
  exact_lib b O L J_min lam spin s nside reality ->
  is_harmonic L spin reality flm -> b_inv (lib_of b O) flm L spin s nside reality = Ok f ->
  analysed b O f L N J_min lam spin 0 s nside reality mr psi phi w sc ->
  analysis (lib_of b O) f L N J_min lam spin 0 s nside reality mr false = Ok (w, sc).
Proof. exact an_is_base. Qed.
Print Assumptions C60_analysis.

Theorem C60_synthesis : forall b O L N lam J_min J spin s nside reality mr psi phi w sc W S g,
  1 <= L -> 1 <= N <= L -> (1 < lam)%R -> j_max L lam = Ok J ->
  filters_directional_vectorised L N J_min lam spin 0 = Ok (psi, phi) ->
  exact_lib b O L J_min lam spin s nside reality ->
  measured (lib_of b O) L N J_min J lam spin s nside reality mr w sc W S ->
  resynthesised b O w sc L N J_min lam spin 0 s nside reality mr psi phi g ->
  synthesis (lib_of b O) w sc L N J_min lam spin 0 s nside reality mr = Ok g.
Proof. exact sy_is_base. Qed.
Print Assumptions C60_synthesis.

Theorem C60_exactness : forall O spin s nside reality ix,
  (exact_j O spin s nside reality -> exact_b (lib_of Jax O) spin s nside reality) /\
  (exact_p O s nside reality -> exact_b (lib_of Precompute O) 0 s nside reality) /\
  (exact_t O s nside reality -> exact_b (lib_of Torch O) 0 s nside reality) /\
  (ssht_index s ix -> exact_c O spin s ix reality -> exact_b (lib_of Ssht O) spin s None reality).
Proof. exact lib_exact. Qed.
Print Assumptions C60_exactness.

(** with every implementation: a field of demo coefficients, analysed down to a scaling map of one pixel, the
    coefficients of the maps, and their synthesis *)
Example C54_example : forall b, exists psi phi f w sc W S g, exact_lib b demo 5 0 2 0 MW None true /\
  usable b demo 0 MW None true true /\
  filters_directional_vectorised 5 3 0 2 0 0 = Ok (psi, phi) /\
  (forall l, 0 <= l < 5 -> dir_total 5 psi phi 0 3 l = 1%R) /\
  is_harmonic 5 0 true (demo_flm 5) /\ b_inv (lib_of b demo) (demo_flm 5) 5 0 MW None true = Ok f /\
  (forall l m, 0 <= l < 5 -> Z.abs m <= l -> get2 (demo_flm 5) l (5 - 1 + m) <> RtoC 0) /\
  analysed b demo f 5 3 0 2 0 0 MW None true true psi phi w sc /\
  measured (lib_of b demo) 5 3 0 3 2 0 MW None true true w sc W S /\
  resynthesised b demo w sc 5 3 0 2 0 0 MW None true true psi phi g /\
  b_fwd (lib_of b demo) g 5 0 MW None true = Ok (demo_flm 5) /\ scal_bandlimit 5 0 2 true = Ok 1.
Proof. exact ex_c54. Qed.

(** with every implementation: the base transforms over its entry points return the same maps and bring the field back *)
Example C60_example : forall b, exists psi phi f w sc W S g, exact_lib b demo 5 0 2 0 MW None true /\
  filters_directional_vectorised 5 3 0 2 0 0 = Ok (psi, phi) /\
  is_harmonic 5 0 true (demo_flm 5) /\ b_inv (lib_of b demo) (demo_flm 5) 5 0 MW None true = Ok f /\
  analysed b demo f 5 3 0 2 0 0 MW None true true psi phi w sc /\
  measured (lib_of b demo) 5 3 0 3 2 0 MW None true true w sc W S /\
  resynthesised b demo w sc 5 3 0 2 0 0 MW None true true psi phi g /\
  analysis (lib_of b demo) f 5 3 0 2 0 0 MW None true true false = Ok (w, sc) /\
  synthesis (lib_of b demo) w sc 5 3 0 2 0 0 MW None true true = Ok g /\
  b_fwd (lib_of b demo) g 5 0 MW None true = Ok (demo_flm 5).
Proof. exact ex_c60. Qed.

(** the same calls with the precomputes, or with the sampling MW, succeed *)
Example C36_example : exists psi phi f w sc p f' w' sc' p' f'' w'' sc'',
  filters_directional_vectorised 5 3 0 2 0 0 = Ok (psi, phi) /\
  pre_analysis demo f 5 3 0 2 0 MW None true (Some (psi, phi)) (Some p) = Ok (w, sc) /\
  pre_analysis demo f 5 3 0 2 0 MW None true (Some (psi, phi)) None = Err ValueError /\
  torch_analysis demo f' 5 3 0 2 0 MW None true (Some (psi, phi)) (Some p') = Ok (w', sc') /\
  torch_analysis demo f' 5 3 0 2 0 MW None true (Some (psi, phi)) None = Err ValueError /\
  ssht_analysis demo f'' 5 3 0 2 0 MW true (Some (psi, phi)) = Ok (w'', sc'') /\
  ssht_analysis demo f'' 5 3 0 2 0 HEALPIX true (Some (psi, phi)) = Err ValueError.
Proof. exact ex_c36. Qed.

(** maps that are not the analysis of any field: the residual is not zero *)
Example C55_example : exists psi phi v tc V T g glm w sc W S, exact_lib Base demo 5 1 2 0 MW None true /\
  (forall l, 0 <= l < 5 -> dir_total 5 psi phi 1 3 l = 1%R) /\
  measured demo 5 3 1 3 2 0 MW None true false v tc V T /\
  resynthesised Base demo v tc 5 3 1 2 0 0 MW None true false psi phi g /\
  b_fwd demo g 5 0 MW None true = Ok glm /\
  analysed Base demo g 5 3 1 2 0 0 MW None true false psi phi w sc /\
  measured demo 5 3 1 3 2 0 MW None true false w sc W S /\
  get2 (sub2 T S) 4 (5 - 1 + 0) <> RtoC 0.
Proof. exact ex_c55. Qed.

(** ** C56: rotations *)
(** D l m m' are arbitrary matrices acting on the orders of each degree, such as the Wigner matrices of a rotation *)
Theorem C56_analysis_commutes_with_rotations : forall D b O f flm f' L N lam J_min J spin spin0 s nside reality mr psi phi w sc W S w' sc' W' S',
  1 <= L -> 1 <= N <= L -> (1 < lam)%R -> j_max L lam = Ok J -> exact_lib b O L J_min lam spin s nside reality ->
  is_harmonic L spin reality flm -> b_inv (lib_of b O) flm L spin s nside reality = Ok f ->
  is_harmonic L spin reality (rotate2 D L flm) -> b_inv (lib_of b O) (rotate2 D L flm) L spin s nside reality = Ok f' ->
  analysed b O f L N J_min lam spin spin0 s nside reality mr psi phi w sc ->
  measured (lib_of b O) L N J_min J lam spin s nside reality mr w sc W S ->
  analysed b O f' L N J_min lam spin spin0 s nside reality mr psi phi w' sc' ->
  measured (lib_of b O) L N J_min J lam spin s nside reality mr w' sc' W' S' ->
  (forall Ls, scal_bandlimit L J_min lam mr = Ok Ls -> S' = rotate2 D Ls S) /\
  (forall j Lj Nj L0j, J_min <= j <= J -> LN_j L j N lam mr = Ok (Lj, Nj, L0j) -> W' j = rotate3 D Lj Nj (W j)).
Proof. exact rot_analysis. Qed.
Print Assumptions C56_analysis_commutes_with_rotations.

Theorem C56_synthesis_commutes_with_rotations : forall D b O L N lam J_min J spin spin0 s nside reality mr psi phi w sc W S w' sc' W' S' g glm g' glm',
  1 <= L -> 1 <= N <= L -> (1 < lam)%R -> j_max L lam = Ok J -> exact_lib b O L J_min lam spin s nside reality ->
  measured (lib_of b O) L N J_min J lam spin s nside reality mr w sc W S ->
  measured (lib_of b O) L N J_min J lam spin s nside reality mr w' sc' W' S' ->
  (forall Ls, scal_bandlimit L J_min lam mr = Ok Ls -> S' = rotate2 D Ls S) ->
  (forall j Lj Nj L0j, J_min <= j <= J -> LN_j L j N lam mr = Ok (Lj, Nj, L0j) -> W' j = rotate3 D Lj Nj (W j)) ->
  resynthesised b O w sc L N J_min lam spin spin0 s nside reality mr psi phi g ->
  b_fwd (lib_of b O) g L spin s nside reality = Ok glm ->
  resynthesised b O w' sc' L N J_min lam spin spin0 s nside reality mr psi phi g' ->
  b_fwd (lib_of b O) g' L spin s nside reality = Ok glm' ->
  glm' = rotate2 D L glm.
Proof. exact rot_synthesis. Qed.
Print Assumptions C56_synthesis_commutes_with_rotations.

(** a swap of the orders m and -m, with a phase *)
Example C56_example : exists D f f', exact_lib Base demo 5 1 2 0 MW None false /\ is_harmonic 5 0 false (demo_flm 5) /\
  b_inv demo (demo_flm 5) 5 0 MW None false = Ok f /\
  is_harmonic 5 0 false (rotate2 D 5 (demo_flm 5)) /\ b_inv demo (rotate2 D 5 (demo_flm 5)) 5 0 MW None false = Ok f' /\
  get2 (rotate2 D 5 (demo_flm 5)) 2 (5 - 1 + 1) = Cmult (0, 1)%R (get2 (demo_flm 5) 2 (5 - 1 - 1)) /\
  exists psi phi w sc W S w' sc' W' S', analysed Base demo f 5 3 1 2 0 0 MW None false true psi phi w sc /\
    measured demo 5 3 1 3 2 0 MW None false true w sc W S /\
    analysed Base demo f' 5 3 1 2 0 0 MW None false true psi phi w' sc' /\
    measured demo 5 3 1 3 2 0 MW None false true w' sc' W' S'.
Proof. exact ex_c56. Qed.

(** ** C57: localisation in frequency *)
Theorem C57_wavelet_coefficients_localised : forall b O f flm L N lam J_min J spin spin0 s nside reality mr psi phi w sc W S,
  1 <= L -> 1 <= N <= L -> (1 < lam)%R -> j_max L lam = Ok J -> exact_lib b O L J_min lam spin s nside reality ->
  is_harmonic L spin reality flm -> b_inv (lib_of b O) flm L spin s nside reality = Ok f ->
  analysed b O f L N J_min lam spin spin0 s nside reality mr psi phi w sc ->
  measured (lib_of b O) L N J_min J lam spin s nside reality mr w sc W S ->
  (forall j Lj Nj L0j n l m, J_min <= j <= J -> LN_j L j N lam mr = Ok (Lj, Nj, L0j) ->
     get3 (W j) (Nj - 1 + n) l (Lj - 1 + m) <> RtoC 0 ->
     (powerRZ lam (j - 1) < IZR l < powerRZ lam (j + 1))%R /\ 1 <= l < L /\ Z.abs spin <= l /\ Z.abs m <= l /\
     Z.abs n <= l /\ Z.abs n < N /\ Z.even (n - (N - 1)) = true /\ get2 flm l (L - 1 + m) <> RtoC 0) /\
  (forall Ls l m, scal_bandlimit L J_min lam mr = Ok Ls -> get2 S l (Ls - 1 + m) <> RtoC 0 ->
     (IZR l < powerRZ lam J_min)%R /\ Z.abs spin <= l /\ Z.abs m <= l /\ get2 flm l (L - 1 + m) <> RtoC 0).
Proof. exact localised. Qed.
Print Assumptions C57_wavelet_coefficients_localised.

Theorem C57_at_most_two_scales : forall b O f flm L N lam J_min J spin spin0 s nside reality mr psi phi w sc W S,
  1 <= L -> 1 <= N <= L -> (1 < lam)%R -> j_max L lam = Ok J -> exact_lib b O L J_min lam spin s nside reality ->
  is_harmonic L spin reality flm -> b_inv (lib_of b O) flm L spin s nside reality = Ok f ->
  analysed b O f L N J_min lam spin spin0 s nside reality mr psi phi w sc ->
  measured (lib_of b O) L N J_min J lam spin s nside reality mr w sc W S ->
  forall l j j' a c a' c', J_min <= j <= J -> J_min <= j' <= J ->
  get3 (W j) a l c <> RtoC 0 -> get3 (W j') a' l c' <> RtoC 0 -> Z.abs (j - j') <= 1.
Proof. exact two_scales. Qed.
Print Assumptions C57_at_most_two_scales.

(** the demo field: some wavelet coefficient of degree 4 is not zero *)
Example C57_example : exists psi phi f w sc W S j a b, exact_lib Base demo 5 1 2 0 MW None true /\ is_harmonic 5 0 true (demo_flm 5) /\
  b_inv demo (demo_flm 5) 5 0 MW None true = Ok f /\
  analysed Base demo f 5 3 1 2 0 0 MW None true true psi phi w sc /\
  measured demo 5 3 1 3 2 0 MW None true true w sc W S /\
  1 <= j <= 3 /\ get3 (W j) a 4 b <> RtoC 0.
Proof. exact ex_c57. Qed.

(** ** C58: smooth fields are carried by the scaling map alone, oscillating ones by the wavelet maps *)
Theorem C58_smooth_fields : forall b O f flm L N lam J_min J spin s nside reality mr psi phi w sc W S,
  1 <= L -> 1 <= N <= L -> (1 < lam)%R -> j_max L lam = Ok J -> exact_lib b O L J_min lam spin s nside reality ->
  is_harmonic L spin reality flm -> b_inv (lib_of b O) flm L spin s nside reality = Ok f ->
  analysed b O f L N J_min lam spin 0 s nside reality mr psi phi w sc ->
  measured (lib_of b O) L N J_min J lam spin s nside reality mr w sc W S ->
  (forall l m, get2 flm l (L - 1 + m) <> RtoC 0 -> (IZR l <= powerRZ lam (J_min - 1))%R) ->
  (forall j a l c, J_min <= j <= J -> get3 (W j) a l c = RtoC 0) /\
  (forall Ls l m, scal_bandlimit L J_min lam mr = Ok Ls -> get2 S l (Ls - 1 + m) = get2 flm l (L - 1 + m)).
Proof. exact smooth. Qed.
Print Assumptions C58_smooth_fields.

Theorem C58_oscillating_fields : forall b O f flm L N lam J_min J spin spin0 s nside reality mr psi phi w sc W S,
  1 <= L -> 1 <= N <= L -> (1 < lam)%R -> j_max L lam = Ok J -> exact_lib b O L J_min lam spin s nside reality ->
  is_harmonic L spin reality flm -> b_inv (lib_of b O) flm L spin s nside reality = Ok f ->
  analysed b O f L N J_min lam spin spin0 s nside reality mr psi phi w sc ->
  measured (lib_of b O) L N J_min J lam spin s nside reality mr w sc W S ->
  (forall l m, get2 flm l (L - 1 + m) <> RtoC 0 -> (powerRZ lam J_min <= IZR l)%R) ->
  forall l k, get2 S l k = RtoC 0.
Proof. exact oscillating. Qed.
Print Assumptions C58_oscillating_fields.

(** a field with the degrees 0, 1, 2 only, analysed from the scale J_min = 2 on *)
Example C58_example : exists flm f psi phi w sc W S, exact_lib Base demo 5 2 2 0 MW None true /\ is_harmonic 5 0 true flm /\
  b_inv demo flm 5 0 MW None true = Ok f /\
  analysed Base demo f 5 3 2 2 0 0 MW None true true psi phi w sc /\
  measured demo 5 3 2 3 2 0 MW None true true w sc W S /\
  (forall l m, get2 flm l (5 - 1 + m) <> RtoC 0 -> (IZR l <= powerRZ 2 (2 - 1))%R) /\
  (forall l m, 0 <= l <= 2 -> Z.abs m <= l -> get2 flm l (5 - 1 + m) <> RtoC 0).
Proof. exact ex_c58. Qed.

(** ** C59: the wavelet coefficients can be steered *)
(** The map of scale j at any orientation g is a combination, with weights that depend on g only, of
    the maps at Nj equispaced orientations in [0, pi). *)
Theorem C59_steering : forall b O f flm L N lam J_min J spin spin0 s nside reality mr psi phi w sc W S,
  1 <= L -> 1 <= N <= L -> (1 < lam)%R -> j_max L lam = Ok J -> exact_lib b O L J_min lam spin s nside reality ->
  is_harmonic L spin reality flm -> b_inv (lib_of b O) flm L spin s nside reality = Ok f ->
  analysed b O f L N J_min lam spin spin0 s nside reality mr psi phi w sc ->
  measured (lib_of b O) L N J_min J lam spin s nside reality mr w sc W S ->
  forall j Lj Nj L0j g l m, J_min <= j <= J -> LN_j L j N lam mr = Ok (Lj, Nj, L0j) ->
  oriented Lj Nj (W j) g l m
  = csumZ 0 Nj (fun k => Cmult (RtoC (steer_weight Nj (g - IZR k * PI / IZR Nj)))
                               (oriented Lj Nj (W j) (IZR k * PI / IZR Nj) l m)).
Proof. exact steering. Qed.
Print Assumptions C59_steering.

Example C59_example : exists psi phi f w sc W S j a b Lj Nj L0j, exact_lib Base demo 5 1 2 0 MW None true /\ is_harmonic 5 0 true (demo_flm 5) /\
  b_inv demo (demo_flm 5) 5 0 MW None true = Ok f /\
  analysed Base demo f 5 3 1 2 0 0 MW None true true psi phi w sc /\
  measured demo 5 3 1 3 2 0 MW None true true w sc W S /\
  1 <= j <= 3 /\ get3 (W j) a 4 b <> RtoC 0 /\ LN_j 5 j 3 2 true = Ok (Lj, Nj, L0j).
Proof. exact ex_c59. Qed.
