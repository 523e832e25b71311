(** * Properties of the transforms *)

From Coq Require Import ZArith Reals List Bool.
From Coquelicot Require Import Complex.
From Verif Require Import Py ModelSamples ModelFilters ModelTransforms Spec SpecTransforms Demo.
From Verif Require Import TransformsProps.
Import ListNotations.
Open Scope Z_scope.

(** ** What the base transforms compute, in harmonic space *)
Theorem C22_analysis_coefficients : forall O f L N lam J_min J spin s nside reality mr scattering psi phi sz Ls,
  1 <= L -> 1 <= N <= L -> (1 < lam)%R ->
  filters_directional_vectorised L N J_min lam spin 0 = Ok (psi, phi) -> j_max L lam = Ok J ->
  sampling_known s nside -> fwd_shapes_b O spin s nside reality ->
  (forall j, LN_j L j N lam mr = Ok (sz j)) -> scal_bandlimit L J_min lam mr = Ok Ls ->
  analysis O f L N J_min lam spin 0 s nside reality mr scattering
  = (flm <- b_fwd O f L spin s nside reality ;;
     w <- mapM (fun j => let '(Lj, Nj, L0j) := sz j in
                 b_winv O (wcoefs L psi flm sz j) Lj Nj L0j s reality nside) (zrange J_min (J + 1)) ;;
     sc <- b_inv O (scaling_coefs L phi flm Ls) Ls spin s nside reality ;;
     Ok (if scattering then map nd_abs w else w, sc)).
Proof. exact analysis_coefs. Qed.
Print Assumptions C22_analysis_coefficients.

Theorem C22_synthesis_coefficients : forall O f_wav f_scal L N lam J_min J spin s nside reality mr psi phi sz Ls,
  1 <= L -> 1 <= N <= L -> (1 < lam)%R ->
  filters_directional_vectorised L N J_min lam spin 0 = Ok (psi, phi) -> j_max L lam = Ok J ->
  fwd_shapes_b O spin s nside reality ->
  (forall j, LN_j L j N lam mr = Ok (sz j)) -> scal_bandlimit L J_min lam mr = Ok Ls ->
  synthesis O f_wav f_scal L N J_min lam spin 0 s nside reality mr
  = (_ <- wavelet_shape_check f_wav f_scal L N J_min lam s nside mr ;;
     S <- b_fwd O f_scal Ls spin s nside reality ;;
     Ws <- mapM (fun j => let '(Lj, Nj, L0j) := sz j in
                  fj <- lrd f_wav (j - J_min) ;; b_wfwd O fj Lj Nj L0j s reality nside) (zrange J_min (J + 1)) ;;
     b_inv O (synthesised L J_min J psi phi sz
                (fun j => nth (Z.to_nat (j - J_min)) Ws (mk3 0 0 0 (fun _ _ _ => RtoC 0))) Ls S)
       L spin s nside reality).
Proof. exact synthesis_coefs. Qed.
Print Assumptions C22_synthesis_coefficients.

Theorem C22_reconstruction : forall L N lam J_min J spin spin0 mr psi phi flm sz Ls,
  1 <= L -> 1 <= N <= L -> (1 < lam)%R ->
  is_filters L N J_min lam spin spin0 psi phi -> j_max L lam = Ok J ->
  (forall j, LN_j L j N lam mr = Ok (sz j)) -> scal_bandlimit L J_min lam mr = Ok Ls ->
  harmonic L spin flm ->
  synthesised L J_min J psi phi sz (wcoefs L psi flm sz) Ls (scaling_coefs L phi flm Ls)
  = scale_l (dir_total L psi phi J_min J) flm /\
  ((forall l, Z.abs spin <= l < L -> dir_total L psi phi J_min J l = 1%R) ->
   synthesised L J_min J psi phi sz (wcoefs L psi flm sz) Ls (scaling_coefs L phi flm Ls) = flm).
Proof. exact reconstruction. Qed.
Print Assumptions C22_reconstruction.

Example C22_example : exists psi phi sz Ls,
  filters_directional_vectorised 5 3 1 2 0 0 = Ok (psi, phi) /\ j_max 5 2 = Ok 3 /\
  (forall j, LN_j 5 j 3 2 true = Ok (sz j)) /\ scal_bandlimit 5 1 2 true = Ok Ls /\
  sampling_known MW None /\ fwd_shapes_b demo 0 MW None true /\ harmonic 5 0 (demo_flm 5) /\
  get2 (demo_flm 5) 2 (5 - 1 + 1) <> RtoC 0 /\
  (forall l, 0 <= l < 5 -> dir_total 5 psi phi 1 3 l = 1%R).
Proof. exact ex_c22. Qed.

(** ** C07: analysis output is accepted by synthesis *)
Theorem C07_vectorised_analysis_accepted : forall O f L N lam J_min J spin s nside reality mr scattering w sc,
  1 <= L -> 1 <= N <= L -> (1 < lam)%R -> j_max L lam = Ok J -> 0 <= J_min < J ->
  sampling_known s nside -> fwd_shapes_b O spin s nside reality -> inv_shapes_b O spin s nside reality ->
  analysis O f L N J_min lam spin 0 s nside reality mr scattering = Ok (w, sc) ->
  wavelet_shape_check w sc L N J_min lam s nside mr = Ok tt.
Proof. exact accepted_vec. Qed.
Print Assumptions C07_vectorised_analysis_accepted.

Theorem C07_looped_analysis_accepted : forall O f L N lam J_min J spin spin0 s nside reality mr w sc,
  1 <= L -> 1 <= N -> (1 < lam)%R -> j_max L lam = Ok J -> 0 <= J_min < J ->
  sampling_known s nside -> fwd_shapes_b O spin s nside reality -> inv_shapes_b O spin s nside reality ->
  analysis_looped O f L N J_min lam spin spin0 s nside reality mr = Ok (w, sc) ->
  wavelet_shape_check w sc L N J_min lam s nside mr = Ok tt.
Proof. exact accepted_loop. Qed.
Print Assumptions C07_looped_analysis_accepted.

(** ** C23, C24: round trips.  f is the band-limited field with coefficients flm. *)
Theorem C23_round_trip_vectorised : forall O f flm L N lam J_min J spin s nside reality mr psi phi,
  1 <= L -> 1 <= N <= L -> (1 < lam)%R ->
  filters_directional_vectorised L N J_min lam spin 0 = Ok (psi, phi) -> j_max L lam = Ok J ->
  exact_b O spin s nside reality ->
  is_harmonic L spin reality flm -> b_inv O flm L spin s nside reality = Ok f ->
  exists w sc,
    analysis O f L N J_min lam spin 0 s nside reality mr false = Ok (w, sc) /\
    synthesis O w sc L N J_min lam spin 0 s nside reality mr
    = b_inv O (scale_l (dir_total L psi phi J_min J) flm) L spin s nside reality /\
    ((forall l, Z.abs spin <= l < L -> dir_total L psi phi J_min J l = 1%R) ->
     synthesis O w sc L N J_min lam spin 0 s nside reality mr = Ok f).
Proof. exact rt_vec. Qed.
Print Assumptions C23_round_trip_vectorised.

Theorem C23_round_trip_looped : forall O f flm L N lam J_min J spin spin0 s nside (reality : bool) mr psi phi,
  1 <= L -> 1 <= N <= L -> (1 < lam)%R ->
  filters_directional L N J_min lam spin spin0 = Ok (psi, phi) -> j_max L lam = Ok J ->
  exact_b O spin s nside reality ->
  (reality = true -> spin = 0 /\ reads_nonnegative O s nside) ->
  is_harmonic L spin reality flm -> b_inv O flm L spin s nside reality = Ok f ->
  exists w sc,
    analysis_looped O f L N J_min lam spin spin0 s nside reality mr = Ok (w, sc) /\
    synthesis_looped O w sc L N J_min lam spin spin0 s nside reality mr
    = b_inv O (scale_l (dir_total L psi phi J_min J) flm) L spin s nside reality /\
    ((forall l, Z.abs spin <= l < L -> dir_total L psi phi J_min J l = 1%R) ->
     synthesis_looped O w sc L N J_min lam spin spin0 s nside reality mr = Ok f).
Proof. exact rt_loop. Qed.
Print Assumptions C23_round_trip_looped.

Theorem C23_round_trip_jax : forall O f flm L N lam J_min J spin spin0 s nside reality psi phi pa ps qa qs,
  1 <= L -> 1 <= N <= L -> (1 < lam)%R ->
  is_filters L N J_min lam spin spin0 psi phi -> j_max L lam = Ok J ->
  exact_j O spin s nside reality ->
  (scal_bandlimit L J_min lam true = Ok 1 -> one_point spin reality (fun y => j_fwd O y 1 spin nside s reality)) ->
  generate_wigner_precomputes L N J_min lam s nside false reality = Ok qa -> (pa = None \/ pa = Some qa) ->
  generate_wigner_precomputes L N J_min lam s nside true reality = Ok qs -> (ps = None \/ ps = Some qs) ->
  is_harmonic L spin reality flm -> j_inv O flm L spin nside s reality = Ok f ->
  exists w sc,
    jax_analysis O f L N J_min lam spin s nside reality (Some (psi, phi)) pa = Ok (w, sc) /\
    jax_synthesis O w sc L N J_min lam spin s nside reality (Some (psi, phi)) ps
    = j_inv O (scale_l (dir_total L psi phi J_min J) flm) L spin nside s reality /\
    ((forall l, Z.abs spin <= l < L -> dir_total L psi phi J_min J l = 1%R) ->
     jax_synthesis O w sc L N J_min lam spin s nside reality (Some (psi, phi)) ps = Ok f).
Proof. exact rt_jax. Qed.
Print Assumptions C23_round_trip_jax.

Theorem C23_round_trip_precompute : forall O f flm L N lam J_min J spin0 s nside reality psi phi pa ps,
  1 <= L -> 1 <= N <= L -> (1 < lam)%R ->
  is_filters L N J_min lam 0 spin0 psi phi -> j_max L lam = Ok J ->
  exact_p O s nside reality ->
  (scal_bandlimit L J_min lam true = Ok 1 ->
   one_point 0 reality (fun y => p_fwd O y (SKern 1 0 reality s nside true) 1 s reality 0 nside)) ->
  generate_full_precomputes L N J_min lam s nside false reality false = Ok pa ->
  generate_full_precomputes L N J_min lam s nside true reality false = Ok ps ->
  is_harmonic L 0 reality flm -> p_inv O flm (SKern L 0 reality s nside false) L s reality 0 nside = Ok f ->
  exists w sc,
    pre_analysis O f L N J_min lam 0 s nside reality (Some (psi, phi)) (Some pa) = Ok (w, sc) /\
    pre_synthesis O w sc L N J_min lam 0 s nside reality (Some (psi, phi)) (Some ps)
    = p_inv O (scale_l (dir_total L psi phi J_min J) flm) (SKern L 0 reality s nside false) L s reality 0 nside /\
    ((forall l, 0 <= l < L -> dir_total L psi phi J_min J l = 1%R) ->
     pre_synthesis O w sc L N J_min lam 0 s nside reality (Some (psi, phi)) (Some ps) = Ok f).
Proof. exact rt_precompute. Qed.
Print Assumptions C23_round_trip_precompute.

Theorem C23_round_trip_torch : forall O f flm L N lam J_min J spin0 s nside reality psi phi pa ps,
  1 <= L -> 1 <= N <= L -> (1 < lam)%R ->
  is_filters L N J_min lam 0 spin0 psi phi -> j_max L lam = Ok J ->
  exact_t O s nside reality ->
  (scal_bandlimit L J_min lam true = Ok 1 ->
   one_point 0 reality (fun y => t_fwd O y (SKern 1 0 reality s nside true) 1 s reality 0 nside)) ->
  generate_full_precomputes L N J_min lam s nside false reality false = Ok pa ->
  generate_full_precomputes L N J_min lam s nside true reality false = Ok ps ->
  is_harmonic L 0 reality flm -> t_inv O flm (SKern L 0 reality s nside false) L s reality 0 nside = Ok f ->
  exists w sc,
    torch_analysis O f L N J_min lam 0 s nside reality (Some (psi, phi)) (Some pa) = Ok (map Some w, sc) /\
    torch_synthesis O w sc L N J_min lam 0 s nside reality (Some (psi, phi)) (Some ps)
    = t_inv O (scale_l (dir_total L psi phi J_min J) flm) (SKern L 0 reality s nside false) L s reality 0 nside /\
    ((forall l, 0 <= l < L -> dir_total L psi phi J_min J l = 1%R) ->
     torch_synthesis O w sc L N J_min lam 0 s nside reality (Some (psi, phi)) (Some ps) = Ok f).
Proof. exact rt_torch. Qed.
Print Assumptions C23_round_trip_torch.

Theorem C23_round_trip_c : forall O f flm L N lam J_min J spin spin0 s ix (reality : bool) psi phi,
  1 <= L -> 1 <= N <= L -> (1 < lam)%R ->
  is_filters L N J_min lam spin spin0 psi phi -> j_max L lam = Ok J ->
  ssht_index s ix -> exact_c O spin s ix reality ->
  (reality = true -> spin = 0 /\ real_fields (fun a L => c_inv O a L 0 true ix)) ->
  (scal_bandlimit L J_min lam true = Ok 1 -> one_point spin reality (fun y => c_fwd O y 1 spin reality ix)) ->
  is_harmonic L spin reality flm -> c_inv O flm L spin reality ix = Ok f ->
  exists w sc,
    ssht_analysis O f L N J_min lam spin s reality (Some (psi, phi)) = Ok (w, sc) /\
    ssht_synthesis O w sc L N J_min lam spin s reality (Some (psi, phi))
    = c_inv O (scale_l (dir_total L psi phi J_min J) flm) L spin reality ix /\
    ((forall l, Z.abs spin <= l < L -> dir_total L psi phi J_min J l = 1%R) ->
     ssht_synthesis O w sc L N J_min lam spin s reality (Some (psi, phi)) = Ok f).
Proof. exact rt_c. Qed.
Print Assumptions C23_round_trip_c.

(** a signal with every coefficient non-zero, and a scaling function on one pixel (J_min = 0) *)
Example C23_example : exists psi phi pa ps f,
  filters_directional_vectorised 5 3 0 2 0 0 = Ok (psi, phi) /\ is_filters 5 3 0 2 0 0 psi phi /\ j_max 5 2 = Ok 3 /\
  (forall l, 0 <= l < 5 -> dir_total 5 psi phi 0 3 l = 1%R) /\
  exact_b demo 0 MW None true /\ exact_j demo 0 MW None true /\ exact_p demo MW None true /\
  exact_t demo MW None true /\ exact_c demo 0 MW 0 true /\ ssht_index MW 0 /\
  reads_nonnegative demo MW None /\ real_fields (fun a L => c_inv demo a L 0 true 0) /\
  scal_bandlimit 5 0 2 true = Ok 1 /\
  one_point 0 true (fun y => j_fwd demo y 1 0 None MW true) /\
  one_point 0 true (fun y => p_fwd demo y (SKern 1 0 true MW None true) 1 MW true 0 None) /\
  one_point 0 true (fun y => t_fwd demo y (SKern 1 0 true MW None true) 1 MW true 0 None) /\
  one_point 0 true (fun y => c_fwd demo y 1 0 true 0) /\
  generate_full_precomputes 5 3 0 2 MW None false true false = Ok pa /\
  generate_full_precomputes 5 3 0 2 MW None true true false = Ok ps /\
  is_harmonic 5 0 true (demo_flm 5) /\ b_inv demo (demo_flm 5) 5 0 MW None true = Ok f /\
  (forall l m, 0 <= l < 5 -> Z.abs m <= l -> get2 (demo_flm 5) l (5 - 1 + m) <> RtoC 0).
Proof. exact ex_c23. Qed.

Example C07_example : exists f w sc w' sc', j_max 5 2 = Ok 3 /\ sampling_known MW None /\
  fwd_shapes_b demo 0 MW None true /\ inv_shapes_b demo 0 MW None true /\
  analysis demo f 5 3 1 2 0 0 MW None true true false = Ok (w, sc) /\
  analysis_looped demo f 5 3 1 2 0 0 MW None true true = Ok (w', sc').
Proof. exact ex_c07. Qed.

(** ** C24: spin-lowered wavelets do not reconstruct *)
Theorem C24_spin0_factor : forall L N lam J_min J spin spin0 psi phi k,
  1 <= L -> 1 <= N -> (1 < lam)%R ->
  filters_directional L N J_min lam spin spin0 = Ok (psi, phi) ->
  k_lam L lam 300 = Ok k -> j_max L lam = Ok J ->
  forall l, 0 <= l < L -> (forall j, J_min <= j <= J -> (get2 k j l <= 1)%R) ->
  dir_total L psi phi J_min J l
  = if l <? Z.max (Z.abs spin) (Z.abs spin0) then 0%R else spin_ratio l spin0.
Proof. exact spin0_total. Qed.
Print Assumptions C24_spin0_factor.

Theorem C24_spin0_round_trip_refuted : forall O f flm L N lam J_min J spin spin0 s nside (reality : bool) mr psi phi k,
  1 <= L -> 1 <= N <= L -> (1 < lam)%R ->
  filters_directional L N J_min lam spin spin0 = Ok (psi, phi) -> j_max L lam = Ok J ->
  k_lam L lam 300 = Ok k ->
  (forall j l, J_min <= j <= J -> 0 <= l < L -> (get2 k j l <= 1)%R) ->
  exact_b O spin s nside reality ->
  (reality = true -> spin = 0 /\ reads_nonnegative O s nside) ->
  is_harmonic L spin reality flm -> b_inv O flm L spin s nside reality = Ok f ->
  exists w sc g,
    analysis_looped O f L N J_min lam spin spin0 s nside reality mr = Ok (w, sc) /\
    synthesis_looped O w sc L N J_min lam spin spin0 s nside reality mr = Ok g /\
    b_fwd O g L spin s nside reality
    = Ok (scale_l (fun l => if l <? Z.max (Z.abs spin) (Z.abs spin0) then 0%R else spin_ratio l spin0) flm) /\
    (spin0 <> 0 -> (exists l m, get2 flm l m <> RtoC 0) -> g <> f).
Proof. exact spin0_rt. Qed.
Print Assumptions C24_spin0_round_trip_refuted.

Example C24_example : exists psi phi k f, filters_directional 5 3 1 2 0 1 = Ok (psi, phi) /\ j_max 5 2 = Ok 3 /\
  k_lam 5 2 300 = Ok k /\ (forall j l, 0 <= j <= 3 -> 0 <= l < 5 -> (get2 k j l <= 1)%R) /\
  exact_b demo 0 MW None true /\ reads_nonnegative demo MW None /\
  is_harmonic 5 0 true (demo_flm 5) /\ b_inv demo (demo_flm 5) 5 0 MW None true = Ok f /\
  get2 (demo_flm 5) 2 (5 - 1 + 1) <> RtoC 0.
Proof. exact ex_c24. Qed.

(** ** C25, C26, C27: looped against vectorised, and the reality shortcuts *)
Theorem C26_looped_analysis_coefficients : forall O f L N lam J_min J spin spin0 s nside (reality : bool) mr psi phi sz Ls,
  1 <= L -> 1 <= N -> (1 < lam)%R ->
  filters_directional L N J_min lam spin spin0 = Ok (psi, phi) -> j_max L lam = Ok J ->
  sampling_known s nside ->
  (forall flm, b_fwd O f L spin s nside reality = Ok flm -> is_harmonic L spin reality flm) ->
  (forall j, LN_j L j N lam mr = Ok (sz j)) -> scal_bandlimit L J_min lam mr = Ok Ls ->
  analysis_looped O f L N J_min lam spin spin0 s nside reality mr
  = (flm <- b_fwd O f L spin s nside reality ;;
     w <- mapM (fun j => let '(Lj, Nj, L0j) := sz j in
                 b_winv O (wcoefs L psi flm sz j) Lj Nj L0j s reality nside) (zrange J_min (J + 1)) ;;
     sc <- b_inv O (scaling_coefs L phi flm Ls) Ls spin s nside reality ;;
     Ok (w, sc)).
Proof. exact looped_coefs. Qed.
Print Assumptions C26_looped_analysis_coefficients.

Theorem C26_coefficients_of_real_signals : forall L N lam J_min J spin spin0 reality mr psi phi flm sz Ls,
  1 <= L -> 1 <= N <= L -> (1 < lam)%R ->
  is_filters L N J_min lam spin spin0 psi phi -> j_max L lam = Ok J ->
  (forall j, LN_j L j N lam mr = Ok (sz j)) -> scal_bandlimit L J_min lam mr = Ok Ls ->
  is_harmonic L spin reality flm ->
  is_harmonic Ls spin reality (scaling_coefs L phi flm Ls) /\
  forall j, J_min <= j <= J ->
    let '(Lj, Nj, L0j) := sz j in is_wigner Lj Nj L0j reality (wcoefs L psi flm sz j).
Proof. exact coefs_real. Qed.
Print Assumptions C26_coefficients_of_real_signals.

Theorem C27_looped_synthesis_coefficients : forall O f_wav f_scal L N lam J_min J spin spin0 s nside reality mr psi phi sz Ls,
  1 <= L -> 1 <= N -> (1 < lam)%R ->
  filters_directional L N J_min lam spin spin0 = Ok (psi, phi) -> j_max L lam = Ok J ->
  fwd_coefs_b O spin s nside reality ->
  (forall j, LN_j L j N lam mr = Ok (sz j)) -> scal_bandlimit L J_min lam mr = Ok Ls ->
  synthesis_looped O f_wav f_scal L N J_min lam spin spin0 s nside reality mr
  = (_ <- wavelet_shape_check f_wav f_scal L N J_min lam s nside mr ;;
     S <- b_fwd O f_scal Ls spin s nside reality ;;
     Ws <- mapM (fun j => let '(Lj, Nj, L0j) := sz j in
                  fj <- lrd f_wav (j - J_min) ;; b_wfwd O fj Lj Nj L0j s reality nside) (zrange J_min (J + 1)) ;;
     b_inv O (looped_synthesised L J_min J spin psi phi sz
                (fun j => nth (Z.to_nat (j - J_min)) Ws (mk3 0 0 0 (fun _ _ _ => RtoC 0))) Ls S reality)
       L spin s nside reality).
Proof. exact looped_syn_coefs. Qed.
Print Assumptions C27_looped_synthesis_coefficients.

Theorem C27_reality_nonnegative_orders : forall L J_min J spin psi phi sz W Ls S reality l m,
  0 <= l < L -> 0 <= m < L ->
  get2 (looped_synthesised L J_min J spin psi phi sz W Ls S reality) l (L - 1 + m)
  = get2 (synthesised L J_min J psi phi sz W Ls S) l (L - 1 + m).
Proof. exact looped_nonneg. Qed.
Print Assumptions C27_reality_nonnegative_orders.

Theorem C27_reality_negative_orders_refuted : forall L J_min J spin psi phi sz W Ls S l m,
  real_harmonic L (synthesised L J_min J psi phi sz W Ls S) ->
  0 <= l < L -> - L < m < 0 ->
  get2 (looped_synthesised L J_min J spin psi phi sz W Ls S true) l (L - 1 + m)
  = Cplus (get2 (synthesised L J_min J psi phi sz W Ls S) l (L - 1 + m))
      (if (Z.abs spin <=? l) && (l <? Ls) && (Z.abs m <=? l)
       then csumZ J_min (J + 1) (fun j => let '(Lj, Nj, L0j) := sz j in wavelet_part L psi j Lj Nj L0j (W j) l m)
       else RtoC 0).
Proof. exact looped_neg. Qed.
Print Assumptions C27_reality_negative_orders_refuted.

(** with the reality flag off the looped array is the vectorised one *)
Theorem C25_analysis_looped_equals_vectorised : forall O f L N lam J_min J spin s nside (reality : bool) mr k,
  1 <= L -> 1 <= N <= L -> (1 < lam)%R -> j_max L lam = Ok J -> 0 <= J_min < J ->
  k_lam L lam 300 = Ok k ->
  (forall j l, J_min <= j <= J -> 0 <= l < L -> (get2 k j l <= get2 k (j + 1) l)%R) ->
  sampling_known s nside ->
  (forall flm, b_fwd O f L spin s nside reality = Ok flm -> is_harmonic L spin reality flm) ->
  analysis_looped O f L N J_min lam spin 0 s nside reality mr
  = analysis O f L N J_min lam spin 0 s nside reality mr false.
Proof. exact analysis_eq. Qed.
Print Assumptions C25_analysis_looped_equals_vectorised.

Theorem C25_synthesis_looped_equals_vectorised : forall O f_wav f_scal L N lam J_min J spin s nside (reality : bool) mr k,
  1 <= L -> 1 <= N <= L -> (1 < lam)%R -> j_max L lam = Ok J -> 0 <= J_min < J ->
  k_lam L lam 300 = Ok k ->
  (forall j l, J_min <= j <= J -> 0 <= l < L -> (get2 k j l <= get2 k (j + 1) l)%R) ->
  fwd_coefs_b O spin s nside reality ->
  (reality = true -> spin = 0 /\ reads_nonnegative O s nside) ->
  synthesis_looped O f_wav f_scal L N J_min lam spin 0 s nside reality mr
  = synthesis O f_wav f_scal L N J_min lam spin 0 s nside reality mr.
Proof. exact synthesis_eq. Qed.
Print Assumptions C25_synthesis_looped_equals_vectorised.

Example C25_example : exists f k, j_max 5 2 = Ok 3 /\ k_lam 5 2 300 = Ok k /\
  (forall j l, 0 <= j <= 3 -> 0 <= l < 5 -> (get2 k j l <= get2 k (j + 1) l)%R) /\ sampling_known MW None /\
  b_inv demo (demo_flm 5) 5 0 MW None true = Ok f /\
  (forall flm, b_fwd demo f 5 0 MW None true = Ok flm -> is_harmonic 5 0 true flm) /\
  fwd_coefs_b demo 0 MW None true /\ reads_nonnegative demo MW None.
Proof. exact ex_c25. Qed.

Example C26_example : exists f psi phi sz Ls, filters_directional 5 3 1 2 0 0 = Ok (psi, phi) /\ j_max 5 2 = Ok 3 /\
  sampling_known MW None /\ b_inv demo (demo_flm 5) 5 0 MW None true = Ok f /\
  (forall flm, b_fwd demo f 5 0 MW None true = Ok flm -> is_harmonic 5 0 true flm) /\
  (forall j, LN_j 5 j 3 2 true = Ok (sz j)) /\ scal_bandlimit 5 1 2 true = Ok Ls /\
  is_filters 5 3 1 2 0 0 psi phi /\ is_harmonic 5 0 true (demo_flm 5).
Proof. exact ex_c26. Qed.

(** the arrays synthesised from the coefficients of a real signal have the symmetry of a real signal *)
Example C27_example : exists psi phi sz Ls, filters_directional 5 3 1 2 0 0 = Ok (psi, phi) /\ j_max 5 2 = Ok 3 /\
  fwd_coefs_b demo 0 MW None true /\
  (forall j, LN_j 5 j 3 2 true = Ok (sz j)) /\ scal_bandlimit 5 1 2 true = Ok Ls /\
  real_harmonic 5 (synthesised 5 1 3 psi phi sz (wcoefs 5 psi (demo_flm 5) sz) Ls (scaling_coefs 5 phi (demo_flm 5) Ls)).
Proof. exact ex_c27. Qed.

(** ** C28: multiresolution against full resolution *)
Theorem C28_wavelet_coefficients : forall L N lam J_min J spin spin0 psi phi flm j Lj Nj L0j,
  1 <= L -> 1 <= N <= L -> (1 < lam)%R ->
  is_filters L N J_min lam spin spin0 psi phi -> j_max L lam = Ok J ->
  harmonic L spin flm -> J_min <= j <= J -> LN_j L j N lam true = Ok (Lj, Nj, L0j) ->
  LN_j L j N lam false = Ok (L, N, 0) /\
  forall n l m, Z.abs n < N -> 0 <= l < L -> Z.abs m < L ->
    get3 (wavelet_coefs L psi flm j L N 0) (N - 1 + n) l (L - 1 + m)
    = if (Z.abs n <? Nj) && (L0j <=? l) && (l <? Lj) && (Z.abs m <? Lj)
      then get3 (wavelet_coefs L psi flm j Lj Nj L0j) (Nj - 1 + n) l (Lj - 1 + m) else RtoC 0.
Proof. exact mr_wav. Qed.
Print Assumptions C28_wavelet_coefficients.

Theorem C28_scaling_coefficients : forall L N lam J_min J spin spin0 psi phi flm Ls,
  1 <= L -> 1 <= N <= L -> (1 < lam)%R ->
  is_filters L N J_min lam spin spin0 psi phi -> j_max L lam = Ok J ->
  harmonic L spin flm -> scal_bandlimit L J_min lam true = Ok Ls ->
  scal_bandlimit L J_min lam false = Ok L /\
  forall l m, 0 <= l < L -> Z.abs m < L ->
    get2 (scaling_coefs L phi flm L) l (L - 1 + m)
    = if (l <? Ls) && (Z.abs m <? Ls) then get2 (scaling_coefs L phi flm Ls) l (Ls - 1 + m) else RtoC 0.
Proof. exact mr_scal. Qed.
Print Assumptions C28_scaling_coefficients.

Theorem C28_synthesised_coefficients : forall L N lam J_min J spin spin0 psi phi sz Ls W W' S S',
  1 <= L -> 1 <= N <= L -> (1 < lam)%R ->
  is_filters L N J_min lam spin spin0 psi phi -> j_max L lam = Ok J ->
  (forall j, LN_j L j N lam true = Ok (sz j)) -> scal_bandlimit L J_min lam true = Ok Ls ->
  (forall j, J_min <= j <= J -> let '(Lj, Nj, L0j) := sz j in
     wigner L N 0 (W' j) /\ same_inside L N (W' j) Lj Nj L0j (W j)) ->
  harmonic L spin S' ->
  (forall l m, 0 <= l < Ls -> Z.abs m < Ls -> get2 S' l (L - 1 + m) = get2 S l (Ls - 1 + m)) ->
  synthesised L J_min J psi phi (fun _ => (L, N, 0)) W' L S' = synthesised L J_min J psi phi sz W Ls S.
Proof. exact mr_syn. Qed.
Print Assumptions C28_synthesised_coefficients.

Theorem C28_same_signal : forall O f flm L N lam J_min J spin s nside reality,
  1 <= L -> 1 <= N <= L -> (1 < lam)%R -> j_max L lam = Ok J -> 0 <= J_min < J ->
  exact_b O spin s nside reality ->
  is_harmonic L spin reality flm -> b_inv O flm L spin s nside reality = Ok f ->
  exists w sc w' sc' g,
    analysis O f L N J_min lam spin 0 s nside reality true false = Ok (w, sc) /\
    analysis O f L N J_min lam spin 0 s nside reality false false = Ok (w', sc') /\
    synthesis O w sc L N J_min lam spin 0 s nside reality true = Ok g /\
    synthesis O w' sc' L N J_min lam spin 0 s nside reality false = Ok g.
Proof. exact mr_same. Qed.
Print Assumptions C28_same_signal.

(** full-resolution arrays W' that agree with the multiresolution ones inside, from the coefficients of the signal *)
Example C28_example : exists psi phi sz Ls f, is_filters 5 3 1 2 0 0 psi phi /\ j_max 5 2 = Ok 3 /\
  harmonic 5 0 (demo_flm 5) /\ (forall j, LN_j 5 j 3 2 true = Ok (sz j)) /\ scal_bandlimit 5 1 2 true = Ok Ls /\
  (forall j, 1 <= j <= 3 -> let '(Lj, Nj, L0j) := sz j in
     wigner 5 3 0 (wavelet_coefs 5 psi (demo_flm 5) j 5 3 0) /\
     same_inside 5 3 (wavelet_coefs 5 psi (demo_flm 5) j 5 3 0) Lj Nj L0j (wcoefs 5 psi (demo_flm 5) sz j)) /\
  exact_b demo 0 MW None true /\ is_harmonic 5 0 true (demo_flm 5) /\
  b_inv demo (demo_flm 5) 5 0 MW None true = Ok f.
Proof. exact ex_c28. Qed.

(** ** C29: all backends agree with the base vectorised multiresolution transforms, given the same filters.
   The hypotheses on O say that the external transforms of the backend agree with the base ones:
   on band-limited coefficients for the inverse ones, from the lower limit L0 on for the forward Wigner ones. *)
Theorem C29_jax_analysis : forall O f L N lam J_min J spin s nside reality psi phi pa qa,
  1 <= L -> 1 <= N <= L -> (1 < lam)%R ->
  filters_directional_vectorised L N J_min lam spin 0 = Ok (psi, phi) -> j_max L lam = Ok J ->
  sampling_known s nside -> agrees_j O ->
  (forall flm, b_fwd O f L spin s nside reality = Ok flm -> harmonic L spin flm) ->
  (scal_bandlimit L J_min lam true = Ok 1 -> one_pixel_inverse O spin s nside reality) ->
  generate_wigner_precomputes L N J_min lam s nside false reality = Ok qa -> (pa = None \/ pa = Some qa) ->
  jax_analysis O f L N J_min lam spin s nside reality (Some (psi, phi)) pa
  = analysis O f L N J_min lam spin 0 s nside reality true false.
Proof. exact eq_jax_an. Qed.
Print Assumptions C29_jax_analysis.

Theorem C29_jax_synthesis : forall O f_wav f_scal L N lam J_min J spin s nside reality psi phi ps qs,
  1 <= L -> 1 <= N <= L -> (1 < lam)%R ->
  filters_directional_vectorised L N J_min lam spin 0 = Ok (psi, phi) -> j_max L lam = Ok J ->
  agrees_j O -> fwd_coefs_b O spin s nside reality ->
  generate_wigner_precomputes L N J_min lam s nside true reality = Ok qs -> (ps = None \/ ps = Some qs) ->
  wavelet_shape_check f_wav f_scal L N J_min lam s nside true = Ok tt ->
  jax_synthesis O f_wav f_scal L N J_min lam spin s nside reality (Some (psi, phi)) ps
  = synthesis O f_wav f_scal L N J_min lam spin 0 s nside reality true.
Proof. exact eq_jax_sy. Qed.
Print Assumptions C29_jax_synthesis.

Theorem C29_precompute_analysis : forall O f L N lam J_min J s nside reality psi phi pa,
  1 <= L -> 1 <= N <= L -> (1 < lam)%R ->
  filters_directional_vectorised L N J_min lam 0 0 = Ok (psi, phi) -> j_max L lam = Ok J ->
  sampling_known s nside -> agrees_p O ->
  (forall flm, b_fwd O f L 0 s nside reality = Ok flm -> harmonic L 0 flm) ->
  (scal_bandlimit L J_min lam true = Ok 1 -> one_pixel_inverse O 0 s nside reality) ->
  generate_full_precomputes L N J_min lam s nside false reality false = Ok pa ->
  pre_analysis O f L N J_min lam 0 s nside reality (Some (psi, phi)) (Some pa)
  = analysis O f L N J_min lam 0 0 s nside reality true false.
Proof. exact eq_precompute_an. Qed.
Print Assumptions C29_precompute_analysis.

Theorem C29_precompute_synthesis : forall O f_wav f_scal L N lam J_min J s nside reality psi phi ps,
  1 <= L -> 1 <= N <= L -> (1 < lam)%R ->
  filters_directional_vectorised L N J_min lam 0 0 = Ok (psi, phi) -> j_max L lam = Ok J ->
  agrees_p O -> fwd_coefs_b O 0 s nside reality ->
  generate_full_precomputes L N J_min lam s nside true reality false = Ok ps ->
  wavelet_shape_check f_wav f_scal L N J_min lam s nside true = Ok tt ->
  pre_synthesis O f_wav f_scal L N J_min lam 0 s nside reality (Some (psi, phi)) (Some ps)
  = synthesis O f_wav f_scal L N J_min lam 0 0 s nside reality true.
Proof. exact eq_precompute_sy. Qed.
Print Assumptions C29_precompute_synthesis.

Theorem C29_torch_analysis : forall O f L N lam J_min J s nside reality psi phi pa,
  1 <= L -> 1 <= N <= L -> (1 < lam)%R ->
  filters_directional_vectorised L N J_min lam 0 0 = Ok (psi, phi) -> j_max L lam = Ok J ->
  sampling_known s nside -> agrees_t O ->
  (forall flm, b_fwd O f L 0 s nside reality = Ok flm -> harmonic L 0 flm) ->
  (scal_bandlimit L J_min lam true = Ok 1 -> one_pixel_inverse O 0 s nside reality) ->
  generate_full_precomputes L N J_min lam s nside false reality false = Ok pa ->
  torch_analysis O f L N J_min lam 0 s nside reality (Some (psi, phi)) (Some pa)
  = (' (w, sc) <- analysis O f L N J_min lam 0 0 s nside reality true false ;; Ok (map Some w, sc)).
Proof. exact eq_torch_an. Qed.
Print Assumptions C29_torch_analysis.

Theorem C29_torch_synthesis : forall O f_wav f_scal L N lam J_min J s nside reality psi phi ps,
  1 <= L -> 1 <= N <= L -> (1 < lam)%R ->
  filters_directional_vectorised L N J_min lam 0 0 = Ok (psi, phi) -> j_max L lam = Ok J ->
  agrees_t O -> fwd_coefs_b O 0 s nside reality ->
  generate_full_precomputes L N J_min lam s nside true reality false = Ok ps ->
  wavelet_shape_check f_wav f_scal L N J_min lam s nside true = Ok tt ->
  torch_synthesis O f_wav f_scal L N J_min lam 0 s nside reality (Some (psi, phi)) (Some ps)
  = synthesis O f_wav f_scal L N J_min lam 0 0 s nside reality true.
Proof. exact eq_torch_sy. Qed.
Print Assumptions C29_torch_synthesis.

Theorem C29_c_analysis : forall O f L N lam J_min J spin s ix (reality : bool) psi phi,
  1 <= L -> 1 <= N <= L -> (1 < lam)%R ->
  filters_directional_vectorised L N J_min lam spin 0 = Ok (psi, phi) -> j_max L lam = Ok J ->
  ssht_index s ix -> agrees_c O -> (reality = true -> nd_real f = f) ->
  (forall flm, b_fwd O f L spin s None reality = Ok flm -> harmonic L spin flm) ->
  (scal_bandlimit L J_min lam true = Ok 1 -> one_pixel_inverse O spin s None reality) ->
  ssht_analysis O f L N J_min lam spin s reality (Some (psi, phi))
  = analysis O f L N J_min lam spin 0 s None reality true false.
Proof. exact eq_c_an. Qed.
Print Assumptions C29_c_analysis.

Theorem C29_c_synthesis : forall O f_wav f_scal L N lam J_min J spin s ix (reality : bool) psi phi,
  1 <= L -> 1 <= N <= L -> (1 < lam)%R ->
  filters_directional_vectorised L N J_min lam spin 0 = Ok (psi, phi) -> j_max L lam = Ok J ->
  ssht_index s ix -> agrees_c O -> (reality = true -> nd_real f_scal = f_scal) ->
  fwd_coefs_b O spin s None reality ->
  wavelet_shape_check f_wav f_scal L N J_min lam s None true = Ok tt ->
  ssht_synthesis O f_wav f_scal L N J_min lam spin s reality (Some (psi, phi))
  = synthesis O f_wav f_scal L N J_min lam spin 0 s None reality true.
Proof. exact eq_c_sy. Qed.
Print Assumptions C29_c_synthesis.

Example C29_example : exists psi phi pa ps qa qs f w sc, filters_directional_vectorised 5 3 0 2 0 0 = Ok (psi, phi) /\ j_max 5 2 = Ok 3 /\
  agrees_j demo /\ agrees_p demo /\ agrees_t demo /\ agrees_c demo /\ ssht_index MW 0 /\ sampling_known MW None /\
  fwd_coefs_b demo 0 MW None true /\ scal_bandlimit 5 0 2 true = Ok 1 /\ one_pixel_inverse demo 0 MW None true /\
  generate_full_precomputes 5 3 0 2 MW None false true false = Ok pa /\
  generate_full_precomputes 5 3 0 2 MW None true true false = Ok ps /\
  generate_wigner_precomputes 5 3 0 2 MW None false true = Ok qa /\
  generate_wigner_precomputes 5 3 0 2 MW None true true = Ok qs /\
  nd_real f = f /\ b_inv demo (demo_flm 5) 5 0 MW None true = Ok f /\
  analysis demo f 5 3 0 2 0 0 MW None true true false = Ok (w, sc) /\
  wavelet_shape_check w sc 5 3 0 2 MW None true = Ok tt.
Proof. exact ex_c29. Qed.

(** ** C30: linearity *)
Theorem C30_wavelet_coefficients_linear : forall L psi flm glm sz j a b,
  wcoefs L psi (lin2 a b flm glm) sz j = lin3 a b (wcoefs L psi flm sz j) (wcoefs L psi glm sz j).
Proof. exact wc_lin. Qed.
Print Assumptions C30_wavelet_coefficients_linear.

Theorem C30_scaling_coefficients_linear : forall L phi flm glm Ls a b,
  scaling_coefs L phi (lin2 a b flm glm) Ls = lin2 a b (scaling_coefs L phi flm Ls) (scaling_coefs L phi glm Ls).
Proof. exact sc_lin. Qed.
Print Assumptions C30_scaling_coefficients_linear.

Theorem C30_synthesised_coefficients_linear : forall L J_min J psi phi sz W V Ls S T a b,
  synthesised L J_min J psi phi sz (fun j => lin3 a b (W j) (V j)) Ls (lin2 a b S T)
  = lin2 a b (synthesised L J_min J psi phi sz W Ls S) (synthesised L J_min J psi phi sz V Ls T).
Proof. exact syn_lin. Qed.
Print Assumptions C30_synthesised_coefficients_linear.

Theorem C30_analysis_linear : forall O L N lam J_min J spin s nside reality mr,
  1 <= L -> 1 <= N <= L -> (1 < lam)%R -> j_max L lam = Ok J -> 0 <= J_min < J ->
  sampling_known s nside -> fwd_shapes_b O spin s nside reality -> linear_b O spin s nside reality ->
  linear (scalar reality) nshape lin_nd (fun a b x y => (lin_list a b (fst x) (fst y), lin_nd a b (snd x) (snd y)))
    (fun f => analysis O f L N J_min lam spin 0 s nside reality mr false).
Proof. exact an_lin. Qed.
Print Assumptions C30_analysis_linear.

Theorem C30_synthesis_linear : forall O L N lam J_min J spin s nside reality mr,
  1 <= L -> 1 <= N <= L -> (1 < lam)%R -> j_max L lam = Ok J -> 0 <= J_min < J ->
  fwd_shapes_b O spin s nside reality -> linear_b O spin s nside reality ->
  linear (scalar reality) (fun p => (map nshape (fst p), nshape (snd p)))
    (fun a b x y => (lin_list a b (fst x) (fst y), lin_nd a b (snd x) (snd y))) lin_nd
    (fun p => synthesis O (fst p) (snd p) L N J_min lam spin 0 s nside reality mr).
Proof. exact syn_linear. Qed.
Print Assumptions C30_synthesis_linear.

(** scalars 2 and -1: real, as the reality flag requires *)
Example C30_example : j_max 5 2 = Ok 3 /\ sampling_known MW None /\ fwd_shapes_b demo 0 MW None true /\
  linear_b demo 0 MW None true /\ scalar true (RtoC 2) /\ scalar true (RtoC (-1)) /\
  exists f w sc, analysis demo f 5 3 1 2 0 0 MW None true true false = Ok (w, sc).
Proof. exact ex_c30. Qed.
