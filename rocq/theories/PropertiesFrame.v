(** * The tight frame, and further properties of the base transforms *)

From Coq Require Import ZArith Reals List Bool.
From Coquelicot Require Import Complex.
From Verif Require Import Py ModelSamples ModelFilters ModelTransforms Spec SpecTransforms Demo.
From Verif Require Import FrameProps.
Import ListNotations.
Open Scope Z_scope.

(** ** C31: energy *)
Theorem C31_energy : forall L N lam J_min J spin spin0 mr psi phi flm sz Ls,
  1 <= L -> 1 <= N <= L -> (1 < lam)%R ->
  is_filters L N J_min lam spin spin0 psi phi -> j_max L lam = Ok J ->
  (forall j, LN_j L j N lam mr = Ok (sz j)) -> scal_bandlimit L J_min lam mr = Ok Ls ->
  harmonic L spin flm ->
  (sumZ J_min (J + 1) (fun j => energy3 (wcoefs L psi flm sz j)) + energy2 (scaling_coefs L phi flm Ls)
  = sumZ 0 L (fun l => dir_total L psi phi J_min J l *
                       sumZ 0 (2 * L - 1) (fun k => Cmod (get2 flm l k) ^ 2)))%R.
Proof. exact energy. Qed.
Print Assumptions C31_energy.

Theorem C31_parseval : forall L N lam J_min J spin spin0 mr psi phi flm sz Ls,
  1 <= L -> 1 <= N <= L -> (1 < lam)%R ->
  is_filters L N J_min lam spin spin0 psi phi -> j_max L lam = Ok J ->
  (forall j, LN_j L j N lam mr = Ok (sz j)) -> scal_bandlimit L J_min lam mr = Ok Ls ->
  harmonic L spin flm ->
  (forall l, Z.abs spin <= l < L -> dir_total L psi phi J_min J l = 1%R) ->
  (sumZ J_min (J + 1) (fun j => energy3 (wcoefs L psi flm sz j)) + energy2 (scaling_coefs L phi flm Ls)
   = energy2 flm)%R.
Proof. exact parseval. Qed.
Print Assumptions C31_parseval.

Example C31_example : exists psi phi sz Ls, is_filters 5 3 1 2 0 0 psi phi /\ j_max 5 2 = Ok 3 /\
  (forall j, LN_j 5 j 3 2 true = Ok (sz j)) /\ scal_bandlimit 5 1 2 true = Ok Ls /\ harmonic 5 0 (demo_flm 5) /\
  (forall l, 0 <= l < 5 -> dir_total 5 psi phi 1 3 l = 1%R) /\
  (forall l m, 0 <= l < 5 -> Z.abs m <= l -> get2 (demo_flm 5) l (5 - 1 + m) <> RtoC 0).
Proof. exact ex_c31. Qed.

(** ** C41: synthesised coefficients stay in the harmonic triangle *)
Theorem C41_harmonic_triangle : forall L N lam J_min J spin spin0 mr psi phi sz Ls W S,
  1 <= L -> 1 <= N <= L -> (1 < lam)%R ->
  is_filters L N J_min lam spin spin0 psi phi -> j_max L lam = Ok J ->
  (forall j, LN_j L j N lam mr = Ok (sz j)) -> scal_bandlimit L J_min lam mr = Ok Ls ->
  harmonic Ls spin S ->
  (forall j, J_min <= j <= J -> let '(Lj, Nj, L0j) := sz j in wigner Lj Nj L0j (W j)) ->
  harmonic L spin (synthesised L J_min J psi phi sz W Ls S) /\
  harmonic L spin (looped_synthesised L J_min J spin psi phi sz W Ls S true) /\
  harmonic L spin (looped_synthesised L J_min J spin psi phi sz W Ls S false).
Proof. exact syn_tri. Qed.
Print Assumptions C41_harmonic_triangle.

(** hence every field synthesis returns is the inverse transform of such coefficients *)
Theorem C41_synthesis : forall O f_wav f_scal L N lam J_min spin s nside reality mr g, 1 <= L -> 1 <= N <= L -> (1 < lam)%R ->
  fwd_coefs_b O spin s nside reality ->
  synthesis O f_wav f_scal L N J_min lam spin 0 s nside reality mr = Ok g ->
  exists flm, harmonic L spin flm /\ b_inv O flm L spin s nside reality = Ok g.
Proof. exact syn_api. Qed.
Print Assumptions C41_synthesis.

Theorem C41_looped_synthesis : forall O f_wav f_scal L N lam J_min spin spin0 s nside reality mr g, 1 <= L -> 1 <= N <= L -> (1 < lam)%R ->
  fwd_coefs_b O spin s nside reality ->
  synthesis_looped O f_wav f_scal L N J_min lam spin spin0 s nside reality mr = Ok g ->
  exists flm, harmonic L spin flm /\ b_inv O flm L spin s nside reality = Ok g.
Proof. exact syn_api_looped. Qed.
Print Assumptions C41_looped_synthesis.

(** the coefficients of an analysed signal, and others *)
Example C41_example : exists psi phi sz Ls, is_filters 5 3 1 2 0 0 psi phi /\ j_max 5 2 = Ok 3 /\
  (forall j, LN_j 5 j 3 2 true = Ok (sz j)) /\ scal_bandlimit 5 1 2 true = Ok Ls /\
  harmonic Ls 0 (scaling_coefs 5 phi (demo_flm 5) Ls) /\
  (forall j, 1 <= j <= 3 -> let '(Lj, Nj, L0j) := sz j in wigner Lj Nj L0j (wcoefs 5 psi (demo_flm 5) sz j)).
Proof. exact ex_c41. Qed.

Example C41_synthesis_example : exists f w sc w' sc', fwd_coefs_b demo 0 MW None true /\ b_inv demo (demo_flm 5) 5 0 MW None true = Ok f /\
  synthesis demo w sc 5 3 1 2 0 0 MW None true true = Ok f /\
  synthesis_looped demo w' sc' 5 3 1 2 0 0 MW None true true = Ok f.
Proof. exact ex_c41_syn. Qed.

(** ** C44: the scattering flag *)
Theorem C44_scattering_is_modulus : forall O f L N J_min lam spin spin0 s nside reality mr,
  analysis O f L N J_min lam spin spin0 s nside reality mr true
  = (' (w, sc) <- analysis O f L N J_min lam spin spin0 s nside reality mr false ;; Ok (map nd_abs w, sc)).
Proof. exact scattering_abs. Qed.
Print Assumptions C44_scattering_is_modulus.

Example C44_example : exists f w sc,
  analysis demo f 5 3 1 2 0 0 MW None true true true = Ok (map nd_abs w, sc) /\
  analysis demo f 5 3 1 2 0 0 MW None true true false = Ok (w, sc).
Proof. exact ex_c44. Qed.

(** ** C42: more orders than the filters hold (N > L) *)
Theorem C42_slice_in_range : forall L Nj, 1 <= Nj <= L ->
  selected (2 * L - 1) (between2 (L - Nj) (L - 1 + Nj))
  = map (fun i => L - 1 + (- (Nj - 1) + 2 * i)) (zrange 0 Nj).
Proof. exact slice_in. Qed.
Print Assumptions C42_slice_in_range.

Theorem C42_slice_wraps : forall L Nj, 1 <= L -> L < Nj ->
  selected (2 * L - 1) (between2 (L - Nj) (L - 1 + Nj))
  = map (fun i => Z.max 0 (3 * L - 1 - Nj) + 2 * i) (zrange 0 (Z.min L ((Nj - L + 1) / 2))) /\
  Z.min L ((Nj - L + 1) / 2) < Nj.
Proof. exact slice_wraps. Qed.
Print Assumptions C42_slice_wraps.

Theorem C42_analysis_any_number_of_orders : forall O f L N lam J_min J spin s nside reality mr scattering psi phi sz Ls,
  1 <= L -> 1 <= N -> mr = true \/ N <= L + 2 -> (1 < lam)%R ->
  filters_directional_vectorised L N J_min lam spin 0 = Ok (psi, phi) -> j_max L lam = Ok J ->
  s <> Unknown -> fwd_shapes_b O spin s nside reality ->
  (forall j, LN_j L j N lam mr = Ok (sz j)) -> scal_bandlimit L J_min lam mr = Ok Ls ->
  analysis O f L N J_min lam spin 0 s nside reality mr scattering
  = (flm <- b_fwd O f L spin s nside reality ;;
     w <- mapM (fun j => let '(Lj, Nj, L0j) := sz j in
                 b_winv O (wcoefs L (azimuthal L sz psi) flm sz j) Lj Nj L0j s reality nside) (zrange J_min (J + 1)) ;;
     sc <- b_inv O (scaling_coefs L phi flm Ls) Ls spin s nside reality ;;
     Ok (if scattering then map nd_abs w else w, sc)).
Proof. exact analysis_any. Qed.
Print Assumptions C42_analysis_any_number_of_orders.

(** at the scales with Nj > L the coefficients sent to the inverse Wigner transform are all zero *)
Theorem C42_orders_lost : forall L psi flm sz j Lj Nj L0j, sz j = (Lj, Nj, L0j) -> L < Nj ->
  forall a l b, get3 (wcoefs L (azimuthal L sz psi) flm sz j) a l b = RtoC 0.
Proof. exact orders_lost. Qed.
Print Assumptions C42_orders_lost.

(** the looped analysis sends the right ones, for every number of orders *)
Theorem C42_looped_any_number_of_orders : forall O f L N lam J_min J spin spin0 s nside (reality : bool) mr psi phi sz Ls,
  1 <= L -> 1 <= N -> (1 < lam)%R ->
  filters_directional L N J_min lam spin spin0 = Ok (psi, phi) -> j_max L lam = Ok J ->
  sampling_known s nside ->
  (forall flm, b_fwd O f L spin s nside reality = Ok flm -> is_harmonic L spin reality flm) ->
  (forall j, LN_j L j N lam mr = Ok (sz j)) -> scal_bandlimit L J_min lam mr = Ok Ls ->
  analysis_looped O f L N J_min lam spin spin0 s nside reality mr
  = (flm <- b_fwd O f L spin s nside reality ;;
     w <- mapM (fun j => let '(Lj, Nj, L0j) := sz j in
                 b_winv O (wcoefs L psi flm sz j) Lj Nj L0j s reality nside) (zrange J_min (J + 1)) ;;
     sc <- b_inv O (scaling_coefs L phi flm Ls) Ls spin s nside reality ;;
     Ok (w, sc)).
Proof. exact looped_any. Qed.
Print Assumptions C42_looped_any_number_of_orders.

Theorem C42_analysis_too_many_orders : forall O f L N lam J_min J spin s nside reality scattering psi phi,
  1 <= L -> L + 3 <= N -> (1 < lam)%R ->
  filters_directional_vectorised L N J_min lam spin 0 = Ok (psi, phi) -> j_max L lam = Ok J ->
  s <> Unknown -> fwd_shapes_b O spin s nside reality ->
  analysis O f L N J_min lam spin 0 s nside reality false scattering
  = (_ <- b_fwd O f L spin s nside reality ;; Err ValueError).
Proof. exact analysis_many. Qed.
Print Assumptions C42_analysis_too_many_orders.

Theorem C42_synthesis_any_number_of_orders : forall O f_wav f_scal L N lam J_min J spin s nside reality mr psi phi sz Ls,
  1 <= L -> 1 <= N -> mr = true \/ N <= L + 2 -> (1 < lam)%R ->
  filters_directional_vectorised L N J_min lam spin 0 = Ok (psi, phi) -> j_max L lam = Ok J ->
  fwd_shapes_b O spin s nside reality ->
  (forall j, LN_j L j N lam mr = Ok (sz j)) -> scal_bandlimit L J_min lam mr = Ok Ls ->
  synthesis O f_wav f_scal L N J_min lam spin 0 s nside reality mr
  = (_ <- wavelet_shape_check f_wav f_scal L N J_min lam s nside mr ;;
     S <- b_fwd O f_scal Ls spin s nside reality ;;
     Ws <- mapM (fun j => let '(Lj, Nj, L0j) := sz j in
                  fj <- lrd f_wav (j - J_min) ;; b_wfwd O fj Lj Nj L0j s reality nside) (zrange J_min (J + 1)) ;;
     b_inv O (synthesised L J_min J (azimuthal L sz psi) phi sz
                (fun j => nth (Z.to_nat (j - J_min)) Ws (mk3 0 0 0 (fun _ _ _ => RtoC 0))) Ls S)
       L spin s nside reality).
Proof. exact synthesis_any. Qed.
Print Assumptions C42_synthesis_any_number_of_orders.

Theorem C42_synthesis_too_many_orders : forall O f_wav f_scal L N lam J_min J spin s nside reality psi phi sz Ls,
  1 <= L -> L + 3 <= N -> (1 < lam)%R ->
  filters_directional_vectorised L N J_min lam spin 0 = Ok (psi, phi) -> j_max L lam = Ok J ->
  fwd_shapes_b O spin s nside reality ->
  (forall j, LN_j L j N lam false = Ok (sz j)) -> scal_bandlimit L J_min lam false = Ok Ls ->
  synthesis O f_wav f_scal L N J_min lam spin 0 s nside reality false
  = (_ <- wavelet_shape_check f_wav f_scal L N J_min lam s nside false ;;
     _ <- b_fwd O f_scal Ls spin s nside reality ;;
     fj <- lrd f_wav 0 ;;
     let '(Lj, Nj, L0j) := sz J_min in
     _ <- b_wfwd O fj Lj Nj L0j s reality nside ;; Err ValueError).
Proof. exact synthesis_many. Qed.
Print Assumptions C42_synthesis_too_many_orders.

(** N = 7 = L + 2 and N = 8 = L + 3; with N = 7 the right coefficient at l = 2, m = n = 0 of the scale 1 is not zero *)
Example C42_example : exists psi phi psi' phi' lpsi lphi sz Ls f, filters_directional_vectorised 5 7 1 2 0 0 = Ok (psi, phi) /\
  filters_directional_vectorised 5 8 1 2 0 0 = Ok (psi', phi') /\ filters_directional 5 7 1 2 0 0 = Ok (lpsi, lphi) /\ j_max 5 2 = Ok 3 /\
  MW <> Unknown /\ sampling_known MW None /\ fwd_shapes_b demo 0 MW None true /\
  (forall j, LN_j 5 j 7 2 false = Ok (sz j)) /\ scal_bandlimit 5 1 2 false = Ok Ls /\
  b_inv demo (demo_flm 5) 5 0 MW None true = Ok f /\ b_fwd demo f 5 0 MW None true = Ok (demo_flm 5) /\
  analysis demo f 5 8 1 2 0 0 MW None true false false = Err ValueError /\
  get3 (wcoefs 5 (azimuthal 5 sz lpsi) (demo_flm 5) sz 1) (7 - 1 + 0) 2 (5 - 1 + 0) = RtoC 0 /\
  get3 (wcoefs 5 lpsi (demo_flm 5) sz 1) (7 - 1 + 0) 2 (5 - 1 + 0) <> RtoC 0.
Proof. exact ex_c42. Qed.

(** ** C43: the arrays allocated by the base analysis do not matter *)
Theorem C43_independent_of_allocation : forall O f L N lam J_min J spin s nside reality mr scattering psi phi sz Ls,
  1 <= L -> 1 <= N <= L -> (1 < lam)%R ->
  filters_directional_vectorised L N J_min lam spin 0 = Ok (psi, phi) -> j_max L lam = Ok J ->
  s <> Unknown -> fwd_shapes_b O spin s nside reality ->
  (forall j, LN_j L j N lam mr = Ok (sz j)) -> scal_bandlimit L J_min lam mr = Ok Ls ->
  analysis O f L N J_min lam spin 0 s nside reality mr scattering
  = (flm <- b_fwd O f L spin s nside reality ;;
     w <- mapM (fun j => let '(Lj, Nj, L0j) := sz j in
                 b_winv O (wcoefs L psi flm sz j) Lj Nj L0j s reality nside) (zrange J_min (J + 1)) ;;
     sc <- b_inv O (scaling_coefs L phi flm Ls) Ls spin s nside reality ;;
     Ok (if scattering then map nd_abs w else w, sc)).
Proof. exact analysis_alloc. Qed.
Print Assumptions C43_independent_of_allocation.

Theorem C43_promised_shapes : forall O f L N lam J_min J spin s nside reality mr scattering w sc,
  1 <= L -> 1 <= N -> mr = true \/ N <= L + 2 -> (1 < lam)%R -> j_max L lam = Ok J -> 0 <= J_min < J ->
  s <> Unknown -> fwd_shapes_b O spin s nside reality -> inv_shapes_b O spin s nside reality ->
  analysis O f L N J_min lam spin 0 s nside reality mr scattering = Ok (w, sc) ->
  Z.of_nat (length w) = J - J_min + 1 /\ f_scal L J_min lam s nside mr = Ok (nshape sc) /\
  forall i a, nth_error w i = Some a -> f_wav_j L (J_min + Z.of_nat i) N lam s nside mr = Ok (nshape a).
Proof. exact analysis_shapes. Qed.
Print Assumptions C43_promised_shapes.

Example C43_example : exists psi phi sz Ls f w sc, filters_directional_vectorised 5 3 1 2 0 0 = Ok (psi, phi) /\ j_max 5 2 = Ok 3 /\
  fwd_shapes_b demo 0 MW None true /\ inv_shapes_b demo 0 MW None true /\
  (forall j, LN_j 5 j 3 2 true = Ok (sz j)) /\ scal_bandlimit 5 1 2 true = Ok Ls /\
  analysis demo f 5 3 1 2 0 0 MW None true true false = Ok (w, sc).
Proof. exact ex_c43. Qed.
