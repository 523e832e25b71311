(** * Precomputed kernels, flm_to_analysis and edge cases of the backends *)

From Coq Require Import ZArith Reals List Bool.
From Coquelicot Require Import Complex.
From Verif Require Import Py ModelSamples ModelFilters ModelTransforms Spec SpecTransforms Demo.
From Verif Require Import KernelProps.
Import ListNotations.
Open Scope Z_scope.

(** ** C32: flm_to_analysis is the wavelet part of analysis *)
Theorem C32_jax : forall O f flm L J_min J lam spin s nside reality phi,
  (0 < lam)%R -> j_max L lam = Ok J -> j_fwd O f L spin nside s reality = Ok flm ->
  exists scal : res nd, forall N J_max psi precomps, J_max = None \/ J_max = Some J ->
    jax_analysis O f L N J_min lam spin s nside reality (Some (psi, phi)) precomps
    = (w <- jax_flm_to_analysis O flm L N J_min J_max lam s nside reality (Some psi) precomps ;;
       sc <- scal ;; Ok (w, sc)).
Proof. exact flm_jax. Qed.
Print Assumptions C32_jax.

Theorem C32_precompute : forall O f flm L J_min J lam spin s nside reality phi k0 p1,
  (0 < lam)%R -> j_max L lam = Ok J -> p_fwd O f k0 L s reality spin nside = Ok flm ->
  exists scal : res nd, forall N J_max psi p2, J_max = None \/ J_max = Some J ->
    pre_analysis O f L N J_min lam spin s nside reality (Some (psi, phi)) (Some (Some k0, p1, p2))
    = (w <- pre_flm_to_analysis O flm L N J_min J_max lam s nside reality (Some psi) (Some (Some k0, p1, p2)) true ;;
       sc <- scal ;; Ok (w, sc)).
Proof. exact flm_pre. Qed.
Print Assumptions C32_precompute.

Theorem C32_torch : forall O f flm L J_min J lam spin s nside reality phi k0 p1,
  (0 < lam)%R -> j_max L lam = Ok J -> t_fwd O f k0 L s reality spin nside = Ok flm ->
  exists scal : res nd, forall N J_max psi p2, J_max = None \/ J_max = Some J ->
    torch_analysis O f L N J_min lam spin s nside reality (Some (psi, phi)) (Some (Some k0, p1, p2))
    = (w <- torch_flm_to_analysis O flm L N J_min J_max lam s nside reality (Some psi) (Some (Some k0, p1, p2)) ;;
       sc <- scal ;; Ok (w, sc)).
Proof. exact flm_torch. Qed.
Print Assumptions C32_torch.

Theorem C32_c : forall O f flm L J_min J lam spin s ix reality phi,
  (0 < lam)%R -> j_max L lam = Ok J -> ssht_index s ix -> c_fwd O f L spin reality ix = Ok flm ->
  exists scal : res nd, forall N J_max psi, J_max = None \/ J_max = Some J ->
    match ssht_flm_to_analysis O flm L N J_min J_max lam s reality (Some psi), scal with
    | Ok w, Ok sc => ssht_analysis O f L N J_min lam spin s reality (Some (psi, phi)) = Ok (w, sc)
    | _, _ => exists e, ssht_analysis O f L N J_min lam spin s reality (Some (psi, phi)) = Err e
    end.
Proof. exact flm_c. Qed.
Print Assumptions C32_c.

(** With J_max below j_max the same scales are computed and the rest is left out. *)
Theorem C32_jax_truncated : forall O flm L N lam J_min J J_max s nside reality psi precomps w,
  1 <= L -> 1 <= N <= L -> (1 < lam)%R -> j_max L lam = Ok J -> 0 <= J_min < J -> J_min <= J_max <= J ->
  shape3 psi = [J + 1; L; 2 * L - 1] -> shape2 flm = [L; 2 * L - 1] ->
  jax_flm_to_analysis O flm L N J_min None lam s nside reality (Some psi) precomps = Ok w ->
  length w = Z.to_nat (J - J_min + 1) /\
  jax_flm_to_analysis O flm L N J_min (Some J_max) lam s nside reality (Some psi) precomps
  = Ok (firstn (Z.to_nat (J_max - J_min + 1)) w).
Proof. exact flm_jax_trunc. Qed.
Print Assumptions C32_jax_truncated.

Theorem C32_precompute_truncated : forall O flm L N lam J_min J J_max s nside reality psi precomps w,
  1 <= L -> 1 <= N <= L -> (1 < lam)%R -> j_max L lam = Ok J -> 0 <= J_min < J -> J_min <= J_max < J ->
  shape3 psi = [J + 1; L; 2 * L - 1] -> shape2 flm = [L; 2 * L - 1] ->
  pre_flm_to_analysis O flm L N J_min None lam s nside reality (Some psi) precomps true = Ok w ->
  length w = Z.to_nat (J - J_min + 1) /\
  pre_flm_to_analysis O flm L N J_min (Some J_max) lam s nside reality (Some psi) precomps false
  = Ok (firstn (Z.to_nat (J_max - J_min + 1)) w).
Proof. exact flm_pre_trunc. Qed.
Print Assumptions C32_precompute_truncated.

Theorem C32_c_truncated : forall O flm L N lam J_min J J_max s reality psi w,
  1 <= L -> 1 <= N <= L -> (1 < lam)%R -> j_max L lam = Ok J -> 0 <= J_min < J -> J_min <= J_max <= J ->
  shape3 psi = [J + 1; L; 2 * L - 1] -> shape2 flm = [L; 2 * L - 1] ->
  ssht_flm_to_analysis O flm L N J_min None lam s reality (Some psi) = Ok w ->
  length w = Z.to_nat (J - J_min + 1) /\
  ssht_flm_to_analysis O flm L N J_min (Some J_max) lam s reality (Some psi)
  = Ok (firstn (Z.to_nat (J_max - J_min + 1)) w).
Proof. exact flm_c_trunc. Qed.
Print Assumptions C32_c_truncated.

Example C32_example : exists psi phi f flm pa k0 p1 p2, filters_directional_vectorised 5 3 1 2 0 0 = Ok (psi, phi) /\ j_max 5 2 = Ok 3 /\
  j_fwd demo f 5 0 None MW true = Ok flm /\ generate_full_precomputes 5 3 1 2 MW None false true false = Ok pa /\
  pa = (Some k0, p1, p2) /\ p_fwd demo f k0 5 MW true 0 None = Ok flm /\ t_fwd demo f k0 5 MW true 0 None = Ok flm /\
  ssht_index MW 0 /\ c_fwd demo f 5 0 true 0 = Ok flm /\ flm = demo_flm 5.
Proof. exact ex_c32. Qed.

Example C32_truncated_example : exists psi phi ks pa w w' w'', filters_directional_vectorised 5 3 1 2 0 0 = Ok (psi, phi) /\ j_max 5 2 = Ok 3 /\
  shape3 psi = [3 + 1; 5; 2 * 5 - 1] /\ shape2 (demo_flm 5) = [5; 2 * 5 - 1] /\
  generate_wigner_precomputes 5 3 1 2 MW None false true = Ok ks /\
  generate_full_precomputes 5 3 1 2 MW None false true false = Ok pa /\
  jax_flm_to_analysis demo (demo_flm 5) 5 3 1 None 2 MW None true (Some psi) (Some ks) = Ok w /\
  pre_flm_to_analysis demo (demo_flm 5) 5 3 1 None 2 MW None true (Some psi) (Some pa) true = Ok w' /\
  ssht_flm_to_analysis demo (demo_flm 5) 5 3 1 None 2 MW true (Some psi) = Ok w'' /\ length w = 3%nat.
Proof. exact ex_c32_trunc. Qed.

(** ** C33: the kernels the transforms use.  Whatever the filters (of the documented shapes), every scale
      uses the kernel built for its own sizes and for the direction of the transform, and no kernel index
      is out of range.  The two spherical kernels have spin 0. *)
Theorem C33_jax_analysis : forall O f L N lam J_min J spin s nside reality psi phi sz Ls precomps,
  1 <= L -> 1 <= N <= L -> (1 < lam)%R -> j_max L lam = Ok J -> 0 <= J_min < J ->
  shape3 psi = [J + 1; L; 2 * L - 1] -> shape1 phi = [L] ->
  (forall j, LN_j L j N lam true = Ok (sz j)) -> scal_bandlimit L J_min lam true = Ok Ls ->
  precomps = None \/
    (exists ks, generate_wigner_precomputes L N J_min lam s nside false reality = Ok ks /\ precomps = Some ks) ->
  (forall flm, j_fwd O f L spin nside s reality = Ok flm -> shape2 flm = [L; 2 * L - 1]) ->
  jax_analysis O f L N J_min lam spin s nside reality (Some (psi, phi)) precomps
  = (flm <- j_fwd O f L spin nside s reality ;;
     w <- mapM (fun j => let '(Lj, Nj, L0j) := sz j in
            j_winv O (wcoefs L psi flm sz j) Lj Nj nside s reality (RKern Lj Nj s nside false reality L0j) L0j)
            (zrange J_min (J + 1)) ;;
     sc <- (if Ls =? 1 then Ok (constant_field (scaling_coefs L phi flm Ls))
            else j_inv O (scaling_coefs L phi flm Ls) Ls spin nside s reality) ;;
     Ok (w, sc)).
Proof. exact k_jax_an. Qed.
Print Assumptions C33_jax_analysis.

Theorem C33_jax_synthesis : forall O f_wav f_scal L N lam J_min J spin s nside reality psi phi sz Ls precomps,
  1 <= L -> 1 <= N <= L -> (1 < lam)%R -> j_max L lam = Ok J -> 0 <= J_min < J ->
  shape3 psi = [J + 1; L; 2 * L - 1] -> shape1 phi = [L] ->
  (forall j, LN_j L j N lam true = Ok (sz j)) -> scal_bandlimit L J_min lam true = Ok Ls ->
  precomps = None \/
    (exists ks, generate_wigner_precomputes L N J_min lam s nside true reality = Ok ks /\ precomps = Some ks) ->
  (forall S, j_fwd O f_scal Ls spin nside s reality = Ok S -> shape2 S = [Ls; 2 * Ls - 1]) ->
  (forall f L N L0 a, j_wfwd O f L N nside s reality (RKern L N s nside true reality L0) L0 = Ok a ->
     shape3 a = [2 * N - 1; L; 2 * L - 1]) ->
  jax_synthesis O f_wav f_scal L N J_min lam spin s nside reality (Some (psi, phi)) precomps
  = (S <- j_fwd O f_scal Ls spin nside s reality ;;
     Ws <- mapM (fun j => let '(Lj, Nj, L0j) := sz j in
            fj <- lrd f_wav (j - J_min) ;;
            j_wfwd O fj Lj Nj nside s reality (RKern Lj Nj s nside true reality L0j) L0j)
            (zrange J_min (J + 1)) ;;
     j_inv O (synthesised L J_min J psi phi sz
                (fun j => nth (Z.to_nat (j - J_min)) Ws (mk3 0 0 0 (fun _ _ _ => RtoC 0))) Ls S)
       L spin nside s reality).
Proof. exact k_jax_sy. Qed.
Print Assumptions C33_jax_synthesis.

Theorem C33_precompute_analysis : forall O f L N lam J_min J spin s nside reality psi phi sz Ls precomps,
  1 <= L -> 1 <= N <= L -> (1 < lam)%R -> j_max L lam = Ok J -> 0 <= J_min < J ->
  shape3 psi = [J + 1; L; 2 * L - 1] -> shape1 phi = [L] ->
  (forall j, LN_j L j N lam true = Ok (sz j)) -> scal_bandlimit L J_min lam true = Ok Ls ->
  generate_full_precomputes L N J_min lam s nside false reality false = Ok precomps ->
  (forall flm, p_fwd O f (SKern L 0 reality s nside true) L s reality spin nside = Ok flm -> shape2 flm = [L; 2 * L - 1]) ->
  pre_analysis O f L N J_min lam spin s nside reality (Some (psi, phi)) (Some precomps)
  = (flm <- p_fwd O f (SKern L 0 reality s nside true) L s reality spin nside ;;
     w <- mapM (fun j => let '(Lj, Nj, _) := sz j in
            p_winv O (wcoefs L psi flm sz j) (WKern Lj Nj reality s nside false) Lj Nj s reality nside)
            (zrange J_min (J + 1)) ;;
     sc <- (if Ls =? 1 then Ok (constant_field (scaling_coefs L phi flm Ls))
            else p_inv O (scaling_coefs L phi flm Ls) (SKern Ls 0 reality s nside false) Ls s reality spin nside) ;;
     Ok (w, sc)).
Proof. exact k_pre_an. Qed.
Print Assumptions C33_precompute_analysis.

Theorem C33_precompute_synthesis : forall O f_wav f_scal L N lam J_min J spin s nside reality psi phi sz Ls precomps,
  1 <= L -> 1 <= N <= L -> (1 < lam)%R -> j_max L lam = Ok J -> 0 <= J_min < J ->
  shape3 psi = [J + 1; L; 2 * L - 1] -> shape1 phi = [L] ->
  (forall j, LN_j L j N lam true = Ok (sz j)) -> scal_bandlimit L J_min lam true = Ok Ls ->
  generate_full_precomputes L N J_min lam s nside true reality false = Ok precomps ->
  (forall S, p_fwd O f_scal (SKern Ls 0 reality s nside true) Ls s reality spin nside = Ok S -> shape2 S = [Ls; 2 * Ls - 1]) ->
  (forall f L N a, p_wfwd O f (WKern L N reality s nside true) L N s reality nside = Ok a ->
     shape3 a = [2 * N - 1; L; 2 * L - 1]) ->
  pre_synthesis O f_wav f_scal L N J_min lam spin s nside reality (Some (psi, phi)) (Some precomps)
  = (S <- p_fwd O f_scal (SKern Ls 0 reality s nside true) Ls s reality spin nside ;;
     Ws <- mapM (fun j => let '(Lj, Nj, _) := sz j in
            fj <- lrd f_wav (j - J_min) ;;
            p_wfwd O fj (WKern Lj Nj reality s nside true) Lj Nj s reality nside) (zrange J_min (J + 1)) ;;
     p_inv O (synthesised L J_min J psi phi sz
                (fun j => nth (Z.to_nat (j - J_min)) Ws (mk3 0 0 0 (fun _ _ _ => RtoC 0))) Ls S)
       (SKern L 0 reality s nside false) L s reality spin nside).
Proof. exact k_pre_sy. Qed.
Print Assumptions C33_precompute_synthesis.

Theorem C33_torch_analysis : forall O f L N lam J_min J spin s nside reality psi phi sz Ls precomps,
  1 <= L -> 1 <= N <= L -> (1 < lam)%R -> j_max L lam = Ok J -> 0 <= J_min < J ->
  shape3 psi = [J + 1; L; 2 * L - 1] -> shape1 phi = [L] ->
  (forall j, LN_j L j N lam true = Ok (sz j)) -> scal_bandlimit L J_min lam true = Ok Ls ->
  generate_full_precomputes L N J_min lam s nside false reality false = Ok precomps ->
  (forall flm, t_fwd O f (SKern L 0 reality s nside true) L s reality spin nside = Ok flm -> shape2 flm = [L; 2 * L - 1]) ->
  torch_analysis O f L N J_min lam spin s nside reality (Some (psi, phi)) (Some precomps)
  = (flm <- t_fwd O f (SKern L 0 reality s nside true) L s reality spin nside ;;
     w <- mapM (fun j => let '(Lj, Nj, _) := sz j in
            t_winv O (wcoefs L psi flm sz j) (WKern Lj Nj reality s nside false) Lj Nj s reality nside)
            (zrange J_min (J + 1)) ;;
     sc <- (if Ls =? 1 then Ok (constant_field (scaling_coefs L phi flm Ls))
            else t_inv O (scaling_coefs L phi flm Ls) (SKern Ls 0 reality s nside false) Ls s reality spin nside) ;;
     Ok (map Some w, sc)).
Proof. exact k_torch_an. Qed.
Print Assumptions C33_torch_analysis.

Theorem C33_torch_synthesis : forall O f_wav f_scal L N lam J_min J spin s nside reality psi phi sz Ls precomps,
  1 <= L -> 1 <= N <= L -> (1 < lam)%R -> j_max L lam = Ok J -> 0 <= J_min < J ->
  shape3 psi = [J + 1; L; 2 * L - 1] -> shape1 phi = [L] ->
  (forall j, LN_j L j N lam true = Ok (sz j)) -> scal_bandlimit L J_min lam true = Ok Ls ->
  generate_full_precomputes L N J_min lam s nside true reality false = Ok precomps ->
  (forall S, t_fwd O f_scal (SKern Ls 0 reality s nside true) Ls s reality spin nside = Ok S -> shape2 S = [Ls; 2 * Ls - 1]) ->
  (forall f L N a, t_wfwd O f (WKern L N reality s nside true) L N s reality nside = Ok a ->
     shape3 a = [2 * N - 1; L; 2 * L - 1]) ->
  torch_synthesis O f_wav f_scal L N J_min lam spin s nside reality (Some (psi, phi)) (Some precomps)
  = (S <- t_fwd O f_scal (SKern Ls 0 reality s nside true) Ls s reality spin nside ;;
     Ws <- mapM (fun j => let '(Lj, Nj, _) := sz j in
            fj <- lrd f_wav (j - J_min) ;;
            t_wfwd O fj (WKern Lj Nj reality s nside true) Lj Nj s reality nside) (zrange J_min (J + 1)) ;;
     t_inv O (synthesised L J_min J psi phi sz
                (fun j => nth (Z.to_nat (j - J_min)) Ws (mk3 0 0 0 (fun _ _ _ => RtoC 0))) Ls S)
       (SKern L 0 reality s nside false) L s reality spin nside).
Proof. exact k_torch_sy. Qed.
Print Assumptions C33_torch_synthesis.

Example C33_example : exists psi phi sz Ls ks ks' pa ps, filters_directional_vectorised 5 3 1 2 0 0 = Ok (psi, phi) /\ j_max 5 2 = Ok 3 /\
  shape3 psi = [3 + 1; 5; 2 * 5 - 1] /\ shape1 phi = [5] /\
  (forall j, LN_j 5 j 3 2 true = Ok (sz j)) /\ scal_bandlimit 5 1 2 true = Ok Ls /\
  generate_wigner_precomputes 5 3 1 2 MW None false true = Ok ks /\
  generate_wigner_precomputes 5 3 1 2 MW None true true = Ok ks' /\
  generate_full_precomputes 5 3 1 2 MW None false true false = Ok pa /\
  generate_full_precomputes 5 3 1 2 MW None true true false = Ok ps /\
  (forall f L flm, j_fwd demo f L 0 None MW true = Ok flm -> shape2 flm = [L; 2 * L - 1]) /\
  (forall f L flm, p_fwd demo f (SKern L 0 true MW None true) L MW true 0 None = Ok flm -> shape2 flm = [L; 2 * L - 1]) /\
  (forall f L flm, t_fwd demo f (SKern L 0 true MW None true) L MW true 0 None = Ok flm -> shape2 flm = [L; 2 * L - 1]) /\
  (forall f L N L0 a, j_wfwd demo f L N None MW true (RKern L N MW None true true L0) L0 = Ok a -> shape3 a = [2 * N - 1; L; 2 * L - 1]) /\
  (forall f L N a, p_wfwd demo f (WKern L N true MW None true) L N MW true None = Ok a -> shape3 a = [2 * N - 1; L; 2 * L - 1]) /\
  (forall f L N a, t_wfwd demo f (WKern L N true MW None true) L N MW true None = Ok a -> shape3 a = [2 * N - 1; L; 2 * L - 1]).
Proof. exact ex_c33. Qed.

(** ** C34: stopping at J_max.  The precompute backends use at scale J_max the kernel of another scale;
      with [_precomp_shift=False] they use the right one, except that there is none for J_max = j_max *)
Theorem C34_precompute : forall O flm L N lam J_min J J_max s nside reality psi sz precomps,
  1 <= L -> 1 <= N <= L -> (1 < lam)%R -> j_max L lam = Ok J -> 0 <= J_min < J -> J_min <= J_max <= J ->
  shape3 psi = [J + 1; L; 2 * L - 1] -> shape2 flm = [L; 2 * L - 1] ->
  (forall j, LN_j L j N lam true = Ok (sz j)) ->
  generate_full_precomputes L N J_min lam s nside false reality false = Ok precomps ->
  pre_flm_to_analysis O flm L N J_min (Some J_max) lam s nside reality (Some psi) (Some precomps) true
  = mapM (fun j => let '(Lj, Nj, _) := sz j in let '(Lk, Nk, _) := sz (kernel_scale J_min J J_max j) in
             p_winv O (wcoefs L psi flm sz j) (WKern Lk Nk reality s nside false) Lj Nj s reality nside)
           (zrange J_min (J_max + 1)).
Proof. exact trunc_pre. Qed.
Print Assumptions C34_precompute.

Theorem C34_precompute_checked : forall O flm L N lam J_min J J_max s nside reality psi sz precomps,
  1 <= L -> 1 <= N <= L -> (1 < lam)%R -> j_max L lam = Ok J -> 0 <= J_min < J -> J_min <= J_max <= J ->
  shape3 psi = [J + 1; L; 2 * L - 1] -> shape2 flm = [L; 2 * L - 1] ->
  (forall j, LN_j L j N lam true = Ok (sz j)) ->
  generate_full_precomputes L N J_min lam s nside false reality false = Ok precomps ->
  fst (sz (kernel_scale J_min J J_max J_max)) <> fst (sz J_max) ->
  exists e, pre_flm_to_analysis (checked O) flm L N J_min (Some J_max) lam s nside reality (Some psi)
              (Some precomps) true = Err e.
Proof. exact trunc_pre_checked. Qed.
Print Assumptions C34_precompute_checked.

Theorem C34_torch : forall O flm L N lam J_min J J_max s nside reality psi sz precomps,
  1 <= L -> 1 <= N <= L -> (1 < lam)%R -> j_max L lam = Ok J -> 0 <= J_min < J -> J_min <= J_max <= J ->
  shape3 psi = [J + 1; L; 2 * L - 1] -> shape2 flm = [L; 2 * L - 1] ->
  (forall j, LN_j L j N lam true = Ok (sz j)) ->
  generate_full_precomputes L N J_min lam s nside false reality false = Ok precomps ->
  torch_flm_to_analysis O flm L N J_min (Some J_max) lam s nside reality (Some psi) (Some precomps)
  = (w <- mapM (fun j => let '(Lj, Nj, _) := sz j in let '(Lk, Nk, _) := sz (kernel_scale J_min J J_max j) in
             t_winv O (wcoefs L psi flm sz j) (WKern Lk Nk reality s nside false) Lj Nj s reality nside)
           (zrange J_min (J_max + 1)) ;; Ok (map Some w)).
Proof. exact trunc_torch. Qed.
Print Assumptions C34_torch.

Theorem C34_torch_checked : forall O flm L N lam J_min J J_max s nside reality psi sz precomps,
  1 <= L -> 1 <= N <= L -> (1 < lam)%R -> j_max L lam = Ok J -> 0 <= J_min < J -> J_min <= J_max <= J ->
  shape3 psi = [J + 1; L; 2 * L - 1] -> shape2 flm = [L; 2 * L - 1] ->
  (forall j, LN_j L j N lam true = Ok (sz j)) ->
  generate_full_precomputes L N J_min lam s nside false reality false = Ok precomps ->
  fst (sz (kernel_scale J_min J J_max J_max)) <> fst (sz J_max) ->
  exists e, torch_flm_to_analysis (checked O) flm L N J_min (Some J_max) lam s nside reality (Some psi)
              (Some precomps) = Err e.
Proof. exact trunc_torch_checked. Qed.
Print Assumptions C34_torch_checked.

Theorem C34_unshifted : forall O flm L N lam J_min J J_max s nside reality psi sz precomps,
  1 <= L -> 1 <= N <= L -> (1 < lam)%R -> j_max L lam = Ok J -> 0 <= J_min < J -> J_min <= J_max < J ->
  shape3 psi = [J + 1; L; 2 * L - 1] -> shape2 flm = [L; 2 * L - 1] ->
  (forall j, LN_j L j N lam true = Ok (sz j)) ->
  generate_full_precomputes L N J_min lam s nside false reality false = Ok precomps ->
  pre_flm_to_analysis O flm L N J_min (Some J_max) lam s nside reality (Some psi) (Some precomps) false
  = mapM (fun j => let '(Lj, Nj, _) := sz j in
             p_winv O (wcoefs L psi flm sz j) (WKern Lj Nj reality s nside false) Lj Nj s reality nside)
           (zrange J_min (J_max + 1)).
Proof. exact unshifted_pre. Qed.
Print Assumptions C34_unshifted.

Theorem C34_unshifted_top : forall O flm L N lam J_min J J_max s nside reality psi sz precomps,
  1 <= L -> 1 <= N <= L -> (1 < lam)%R -> j_max L lam = Ok J -> 0 <= J_min < J ->
  J_max = None \/ J_max = Some J ->
  shape3 psi = [J + 1; L; 2 * L - 1] -> shape2 flm = [L; 2 * L - 1] ->
  (forall j, LN_j L j N lam true = Ok (sz j)) ->
  generate_full_precomputes L N J_min lam s nside false reality false = Ok precomps ->
  pre_flm_to_analysis O flm L N J_min J_max lam s nside reality (Some psi) (Some precomps) false
  = (_ <- mapM (fun j => let '(Lj, Nj, _) := sz j in
             p_winv O (wcoefs L psi flm sz j) (WKern Lj Nj reality s nside false) Lj Nj s reality nside)
           (zrange J_min J) ;;
     Err IndexError).
Proof. exact unshifted_top. Qed.
Print Assumptions C34_unshifted_top.

Theorem C34_which_scales : forall L N k J i j sz,
  1 <= L -> 2 <= k -> j_max L (IZR k) = Ok J -> 0 <= i < J -> 0 <= j < J ->
  (forall j, LN_j L j N (IZR k) true = Ok (sz j)) ->
  fst (fst (sz i)) = fst (fst (sz j)) <-> Z.max 1 i = Z.max 1 j.
Proof. exact which_scales. Qed.
Print Assumptions C34_which_scales.

(** with L = 5, scales 0 .. 2 and J_max = 2, the kernel of scale 1 is used at scale 2, and it has another band-limit *)
Example C34_example : exists psi phi sz pa, filters_directional_vectorised 5 3 0 2 0 0 = Ok (psi, phi) /\ j_max 5 2 = Ok 3 /\
  shape3 psi = [3 + 1; 5; 2 * 5 - 1] /\ shape2 (demo_flm 5) = [5; 2 * 5 - 1] /\
  (forall j, LN_j 5 j 3 2 true = Ok (sz j)) /\
  generate_full_precomputes 5 3 0 2 MW None false true false = Ok pa /\
  kernel_scale 0 3 2 2 = 1 /\ fst (sz (kernel_scale 0 3 2 2)) <> fst (sz 2).
Proof. exact ex_c34. Qed.

(** ** C35: the spherical kernels *)
Theorem C35_precompute_analysis : forall O f L N lam J_min J spin s nside reality psi phi precomps,
  1 <= L -> 1 <= N <= L -> (1 < lam)%R -> j_max L lam = Ok J -> 0 <= J_min < J ->
  shape3 psi = [J + 1; L; 2 * L - 1] -> shape1 phi = [L] ->
  generate_full_precomputes L N J_min lam s nside false reality false = Ok precomps ->
  (forall f L flm, p_fwd O f (SKern L 0 reality s nside true) L s reality 0 nside = Ok flm -> shape2 flm = [L; 2 * L - 1]) ->
  pre_analysis (checked O) f L N J_min lam spin s nside reality (Some (psi, phi)) (Some precomps)
  = if spin =? 0
    then pre_analysis O f L N J_min lam spin s nside reality (Some (psi, phi)) (Some precomps)
    else Err AssertionError.
Proof. exact sp0_pre_an. Qed.
Print Assumptions C35_precompute_analysis.

Theorem C35_precompute_synthesis : forall O f_wav f_scal L N lam J_min J spin s nside reality psi phi precomps,
  1 <= L -> 1 <= N <= L -> (1 < lam)%R -> j_max L lam = Ok J -> 0 <= J_min < J ->
  shape3 psi = [J + 1; L; 2 * L - 1] -> shape1 phi = [L] ->
  generate_full_precomputes L N J_min lam s nside true reality false = Ok precomps ->
  (forall f L flm, p_fwd O f (SKern L 0 reality s nside true) L s reality 0 nside = Ok flm -> shape2 flm = [L; 2 * L - 1]) ->
  (forall f L N a, p_wfwd O f (WKern L N reality s nside true) L N s reality nside = Ok a ->
     shape3 a = [2 * N - 1; L; 2 * L - 1]) ->
  pre_synthesis (checked O) f_wav f_scal L N J_min lam spin s nside reality (Some (psi, phi)) (Some precomps)
  = if spin =? 0
    then pre_synthesis O f_wav f_scal L N J_min lam spin s nside reality (Some (psi, phi)) (Some precomps)
    else Err AssertionError.
Proof. exact sp0_pre_sy. Qed.
Print Assumptions C35_precompute_synthesis.

Theorem C35_torch_analysis : forall O f L N lam J_min J spin s nside reality psi phi precomps,
  1 <= L -> 1 <= N <= L -> (1 < lam)%R -> j_max L lam = Ok J -> 0 <= J_min < J ->
  shape3 psi = [J + 1; L; 2 * L - 1] -> shape1 phi = [L] ->
  generate_full_precomputes L N J_min lam s nside false reality false = Ok precomps ->
  (forall f L flm, t_fwd O f (SKern L 0 reality s nside true) L s reality 0 nside = Ok flm -> shape2 flm = [L; 2 * L - 1]) ->
  torch_analysis (checked O) f L N J_min lam spin s nside reality (Some (psi, phi)) (Some precomps)
  = if spin =? 0
    then torch_analysis O f L N J_min lam spin s nside reality (Some (psi, phi)) (Some precomps)
    else Err AssertionError.
Proof. exact sp0_torch_an. Qed.
Print Assumptions C35_torch_analysis.

Theorem C35_torch_synthesis : forall O f_wav f_scal L N lam J_min J spin s nside reality psi phi precomps,
  1 <= L -> 1 <= N <= L -> (1 < lam)%R -> j_max L lam = Ok J -> 0 <= J_min < J ->
  shape3 psi = [J + 1; L; 2 * L - 1] -> shape1 phi = [L] ->
  generate_full_precomputes L N J_min lam s nside true reality false = Ok precomps ->
  (forall f L flm, t_fwd O f (SKern L 0 reality s nside true) L s reality 0 nside = Ok flm -> shape2 flm = [L; 2 * L - 1]) ->
  (forall f L N a, t_wfwd O f (WKern L N reality s nside true) L N s reality nside = Ok a ->
     shape3 a = [2 * N - 1; L; 2 * L - 1]) ->
  torch_synthesis (checked O) f_wav f_scal L N J_min lam spin s nside reality (Some (psi, phi)) (Some precomps)
  = if spin =? 0
    then torch_synthesis O f_wav f_scal L N J_min lam spin s nside reality (Some (psi, phi)) (Some precomps)
    else Err AssertionError.
Proof. exact sp0_torch_sy. Qed.
Print Assumptions C35_torch_synthesis.

Example C35_example : exists psi phi pa ps f, filters_directional_vectorised 5 3 1 2 1 0 = Ok (psi, phi) /\ j_max 5 2 = Ok 3 /\
  shape3 psi = [3 + 1; 5; 2 * 5 - 1] /\ shape1 phi = [5] /\
  generate_full_precomputes 5 3 1 2 MW None false true false = Ok pa /\
  generate_full_precomputes 5 3 1 2 MW None true true false = Ok ps /\
  (forall f L flm, p_fwd demo f (SKern L 0 true MW None true) L MW true 0 None = Ok flm -> shape2 flm = [L; 2 * L - 1]) /\
  pre_analysis (checked demo) f 5 3 1 2 1 MW None true (Some (psi, phi)) (Some pa) = Err AssertionError.
Proof. exact ex_c35. Qed.

(** ** C36: refused calls *)
Theorem C36_precompute : forall O f f_wav f_scal flm L N J_min J_max lam spin s nside reality filters psi b,
  pre_analysis O f L N J_min lam spin s nside reality filters None = Err ValueError /\
  pre_synthesis O f_wav f_scal L N J_min lam spin s nside reality filters None = Err ValueError /\
  pre_flm_to_analysis O flm L N J_min J_max lam s nside reality psi None b = Err ValueError.
Proof. exact refuse_pre. Qed.
Print Assumptions C36_precompute.

Theorem C36_torch : forall O f f_wav f_scal flm L N J_min J_max lam spin s nside reality filters psi,
  torch_analysis O f L N J_min lam spin s nside reality filters None = Err ValueError /\
  torch_synthesis O f_wav f_scal L N J_min lam spin s nside reality filters None = Err ValueError /\
  torch_flm_to_analysis O flm L N J_min J_max lam s nside reality psi None = Err ValueError.
Proof. exact refuse_torch. Qed.
Print Assumptions C36_torch.

Theorem C36_c : forall O f f_wav f_scal L N J_min lam spin s reality filters,
  s = HEALPIX \/ s = Unknown ->
  ssht_analysis O f L N J_min lam spin s reality filters = Err ValueError /\
  ssht_synthesis O f_wav f_scal L N J_min lam spin s reality filters = Err ValueError.
Proof. exact refuse_c. Qed.
Print Assumptions C36_c.

(** ** C37: scaling coefficients on one pixel *)
Theorem C37_promised_shape : forall L J_min lam s nside, (0 < lam)%R ->
  scal_bandlimit L J_min lam true = Ok 1 -> sampling_known s nside ->
  f_scal L J_min lam s nside true = Ok [1; 1] <-> s = MW \/ s = GL.
Proof. exact one_promised. Qed.
Print Assumptions C37_promised_shape.

Theorem C37_jax : forall O f L N lam J_min J spin s nside reality psi phi Ls precomps w sc,
  1 <= L -> 1 <= N <= L -> (1 < lam)%R -> j_max L lam = Ok J -> 0 <= J_min < J ->
  shape3 psi = [J + 1; L; 2 * L - 1] -> shape1 phi = [L] ->
  scal_bandlimit L J_min lam true = Ok Ls ->
  precomps = None \/
    (exists ks, generate_wigner_precomputes L N J_min lam s nside false reality = Ok ks /\ precomps = Some ks) ->
  (forall flm, j_fwd O f L spin nside s reality = Ok flm -> shape2 flm = [L; 2 * L - 1]) ->
  (forall a y, j_inv O a Ls spin nside s reality = Ok y -> s2_f_shape Ls s nside = Ok (nshape y)) ->
  jax_analysis O f L N J_min lam spin s nside reality (Some (psi, phi)) precomps = Ok (w, sc) ->
  exists flm, j_fwd O f L spin nside s reality = Ok flm /\
    (Ls = 1 -> nshape sc = [1; 1] /\ ndat sc [0; 0] = Cmult (get2 flm 0 (L - 1)) (RtoC (get1 phi 0))) /\
    (Ls <> 1 -> f_scal L J_min lam s nside true = Ok (nshape sc)).
Proof. exact one_jax. Qed.
Print Assumptions C37_jax.

Theorem C37_precompute : forall O f L N lam J_min J spin s nside reality psi phi Ls precomps w sc,
  1 <= L -> 1 <= N <= L -> (1 < lam)%R -> j_max L lam = Ok J -> 0 <= J_min < J ->
  shape3 psi = [J + 1; L; 2 * L - 1] -> shape1 phi = [L] ->
  scal_bandlimit L J_min lam true = Ok Ls ->
  generate_full_precomputes L N J_min lam s nside false reality false = Ok precomps ->
  (forall flm, p_fwd O f (SKern L 0 reality s nside true) L s reality spin nside = Ok flm -> shape2 flm = [L; 2 * L - 1]) ->
  (forall a y, p_inv O a (SKern Ls 0 reality s nside false) Ls s reality spin nside = Ok y -> s2_f_shape Ls s nside = Ok (nshape y)) ->
  pre_analysis O f L N J_min lam spin s nside reality (Some (psi, phi)) (Some precomps) = Ok (w, sc) ->
  exists flm, p_fwd O f (SKern L 0 reality s nside true) L s reality spin nside = Ok flm /\
    (Ls = 1 -> nshape sc = [1; 1] /\ ndat sc [0; 0] = Cmult (get2 flm 0 (L - 1)) (RtoC (get1 phi 0))) /\
    (Ls <> 1 -> f_scal L J_min lam s nside true = Ok (nshape sc)).
Proof. exact one_precompute. Qed.
Print Assumptions C37_precompute.

Theorem C37_torch : forall O f L N lam J_min J spin s nside reality psi phi Ls precomps w sc,
  1 <= L -> 1 <= N <= L -> (1 < lam)%R -> j_max L lam = Ok J -> 0 <= J_min < J ->
  shape3 psi = [J + 1; L; 2 * L - 1] -> shape1 phi = [L] ->
  scal_bandlimit L J_min lam true = Ok Ls ->
  generate_full_precomputes L N J_min lam s nside false reality false = Ok precomps ->
  (forall flm, t_fwd O f (SKern L 0 reality s nside true) L s reality spin nside = Ok flm -> shape2 flm = [L; 2 * L - 1]) ->
  (forall a y, t_inv O a (SKern Ls 0 reality s nside false) Ls s reality spin nside = Ok y -> s2_f_shape Ls s nside = Ok (nshape y)) ->
  torch_analysis O f L N J_min lam spin s nside reality (Some (psi, phi)) (Some precomps) = Ok (w, sc) ->
  exists flm, t_fwd O f (SKern L 0 reality s nside true) L s reality spin nside = Ok flm /\
    (Ls = 1 -> nshape sc = [1; 1] /\ ndat sc [0; 0] = Cmult (get2 flm 0 (L - 1)) (RtoC (get1 phi 0))) /\
    (Ls <> 1 -> f_scal L J_min lam s nside true = Ok (nshape sc)).
Proof. exact one_torch. Qed.
Print Assumptions C37_torch.

Theorem C37_c : forall O f L N lam J_min J spin s ix reality psi phi Ls w sc,
  1 <= L -> 1 <= N <= L -> (1 < lam)%R -> j_max L lam = Ok J -> 0 <= J_min < J ->
  shape3 psi = [J + 1; L; 2 * L - 1] -> shape1 phi = [L] ->
  scal_bandlimit L J_min lam true = Ok Ls ->
  ssht_index s ix ->
  (forall flm, c_fwd O f L spin reality ix = Ok flm -> shape2 flm = [L; 2 * L - 1]) ->
  (forall a y, c_inv O a Ls spin reality ix = Ok y -> s2_f_shape Ls s None = Ok (nshape y)) ->
  ssht_analysis O f L N J_min lam spin s reality (Some (psi, phi)) = Ok (w, sc) ->
  exists flm, c_fwd O f L spin reality ix = Ok flm /\
    (Ls = 1 -> nshape sc = [1; 1] /\ ndat sc [0; 0] = Cmult (get2 flm 0 (L - 1)) (RtoC (get1 phi 0))) /\
    (Ls <> 1 -> f_scal L J_min lam s None true = Ok (nshape sc)).
Proof. exact one_c. Qed.
Print Assumptions C37_c.

(** a scaling function on one pixel: (1, 1) is the documented shape with mw, not with mwss *)
Example C37_example : exists psi phi f f' w w' sc sc', filters_directional_vectorised 5 3 0 2 0 0 = Ok (psi, phi) /\ j_max 5 2 = Ok 3 /\
  scal_bandlimit 5 0 2 true = Ok 1 /\ sampling_known MW None /\ sampling_known MWSS None /\
  (forall f flm, j_fwd demo f 5 0 None MW true = Ok flm -> shape2 flm = [5; 2 * 5 - 1]) /\
  jax_analysis demo f 5 3 0 2 0 MW None true (Some (psi, phi)) None = Ok (w, sc) /\
  jax_analysis demo f' 5 3 0 2 0 MWSS None true (Some (psi, phi)) None = Ok (w', sc') /\
  nshape sc = [1; 1] /\ nshape sc' = [1; 1] /\ f_scal 5 0 2 MW None true = Ok [1; 1] /\ f_scal 5 0 2 MWSS None true <> Ok [1; 1].
Proof. exact ex_c37. Qed.
