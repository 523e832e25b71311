(** * Model of /repo/s2wav/transforms/*.py

    The spherical harmonic and Wigner transforms are s2fft's (an external
    package): they appear as the fields of a record of arbitrary functions that
    every transform below takes as its first argument [O].  Facts about them
    are never assumed here; theorems that need one carry it as a hypothesis
    (see Spec.v). *)

From Coq Require Import ZArith Reals List Bool.
From Coquelicot Require Import Complex.
From Verif Require Import Py ModelSamples ModelFilters.
Import ListNotations.
Open Scope Z_scope.

(** ** External transforms *)

(** A precomputed kernel is represented by the arguments it was built from:
    s2fft.precompute_transforms.construct.wigner_kernel_jax(L, N, reality,
    sampling, nside, forward) and spin_spherical_kernel_jax(L, spin, reality,
    sampling, nside, forward). *)
Record wkern := WKern {
  wk_L : Z; wk_N : Z; wk_reality : bool; wk_sampling : sampling;
  wk_nside : option Z; wk_forward : bool }.
Record skern := SKern {
  sk_L : Z; sk_spin : Z; sk_reality : bool; sk_sampling : sampling;
  sk_nside : option Z; sk_forward : bool }.
(** s2fft.generate_precomputes_wigner_jax(L, N, sampling, nside, forward,
    reality, L_lower) *)
Record rkern := RKern {
  rk_L : Z; rk_N : Z; rk_sampling : sampling; rk_nside : option Z;
  rk_forward : bool; rk_reality : bool; rk_L_lower : Z }.

Record s2fft := S2fft {
  (* s2fft.base_transforms.spherical: f, L, spin, sampling, nside, reality *)
  b_fwd : nd -> Z -> Z -> sampling -> option Z -> bool -> res (arr2 C);
  b_inv : arr2 C -> Z -> Z -> sampling -> option Z -> bool -> res nd;
  (* s2fft.base_transforms.wigner: f, L, N, L_lower, sampling, reality, nside *)
  b_wfwd : nd -> Z -> Z -> Z -> sampling -> bool -> option Z -> res (arr3 C);
  b_winv : arr3 C -> Z -> Z -> Z -> sampling -> bool -> option Z -> res nd;
  (* s2fft.forward_jax: f, L, spin, nside, sampling, reality *)
  j_fwd : nd -> Z -> Z -> option Z -> sampling -> bool -> res (arr2 C);
  j_inv : arr2 C -> Z -> Z -> option Z -> sampling -> bool -> res nd;
  (* s2fft.wigner.forward_jax: f, L, N, nside, sampling, reality, precomps, L_lower *)
  j_wfwd : nd -> Z -> Z -> option Z -> sampling -> bool -> rkern -> Z -> res (arr3 C);
  j_winv : arr3 C -> Z -> Z -> option Z -> sampling -> bool -> rkern -> Z -> res nd;
  (* s2fft.precompute_transforms.spherical.*_transform_jax:
     f, kernel, L, sampling, reality, spin, nside *)
  p_fwd : nd -> skern -> Z -> sampling -> bool -> Z -> option Z -> res (arr2 C);
  p_inv : arr2 C -> skern -> Z -> sampling -> bool -> Z -> option Z -> res nd;
  (* s2fft.precompute_transforms.wigner.*_transform_jax:
     f, kernel, L, N, sampling, reality, nside *)
  p_wfwd : nd -> wkern -> Z -> Z -> sampling -> bool -> option Z -> res (arr3 C);
  p_winv : arr3 C -> wkern -> Z -> Z -> sampling -> bool -> option Z -> res nd;
  (* the *_transform_torch versions of the same four *)
  t_fwd : nd -> skern -> Z -> sampling -> bool -> Z -> option Z -> res (arr2 C);
  t_inv : arr2 C -> skern -> Z -> sampling -> bool -> Z -> option Z -> res nd;
  t_wfwd : nd -> wkern -> Z -> Z -> sampling -> bool -> option Z -> res (arr3 C);
  t_winv : arr3 C -> wkern -> Z -> Z -> sampling -> bool -> option Z -> res nd;
  (* s2fft.transforms.c_backend_spherical.ssht_*: f, L, spin, reality, ssht_sampling *)
  c_fwd : nd -> Z -> Z -> bool -> Z -> res (arr2 C);
  c_inv : arr2 C -> Z -> Z -> bool -> Z -> res nd;
  (* s2fft.wigner.*_jax_ssht: f, L, N, L_lower, sampling, reality *)
  c_wfwd : nd -> Z -> Z -> Z -> sampling -> bool -> res (arr3 C);
  c_winv : arr3 C -> Z -> Z -> Z -> sampling -> bool -> res nd
}.

(** ** Small shared expressions *)

(** an argument whose default is None and which is subscripted *)
Definition need {A} (o : option A) : res A :=
  match o with Some a => Ok a | None => Err TypeError end.

(** 8*pi**2/(2*arange(L)+1)   (base.py:316 and its copies) *)
Definition wig_weights (L : Z) : arr1 R :=
  mk1 (Z.max 0 L) (fun l => 8 * (PI * PI) / IZR (2 * l + 1))%R.
(** sqrt(4*pi/(2*arange(Ls)+1))   (base.py:162, 336 and copies) *)
Definition sca_weights (Ls : Z) : arr1 R :=
  mk1 (Z.max 0 Ls) (fun l => sqrt (4 * PI / IZR (2 * l + 1)))%R.
(** np.abs, .real on pixel arrays *)
Definition nd_abs (f : nd) : nd := Nd (nshape f) (fun ix => RtoC (Cmod (ndat f ix))).
Definition nd_real (f : nd) : nd := Nd (nshape f) (fun ix => RtoC (Re (ndat f ix))).

(** ** transforms/construct.py *)

(** construct.py:82-132 *)
Definition generate_wigner_precomputes (L N J_min : Z) (lam : R) (s : sampling)
    (nside : option Z) (forward reality : bool) : res (list rkern) :=
  J <- j_max L lam ;;
  for_ (zrange J_min (J + 1)) [] (fun j precomps =>
    ' (Lj, Nj, L0j) <- LN_j L j N lam true ;;
    Ok (precomps ++ [RKern Lj Nj s nside forward reality L0j])).

(** construct.py:13-79.  The result is (precompute_full, precompute_scaling,
    precomps); an empty list in the first two positions is [None]. *)
Definition generate_full_precomputes (L N J_min : Z) (lam : R) (s : sampling)
    (nside : option Z) (forward reality nospherical : bool)
  : res (option skern * option skern * list wkern) :=
  J <- j_max L lam ;;
  precomps <- for_ (zrange J_min J) [] (fun j precomps =>
    ' (Lj, Nj, _) <- LN_j L j N lam true ;;
    Ok (precomps ++ [WKern Lj Nj reality s nside forward])) ;;
  Ls <- scal_bandlimit L J_min lam true ;;
  if nospherical then Ok (None, None, precomps)
  else
    let precompute_scaling := SKern Ls 0 reality s nside forward in
    let precompute_full := SKern L 0 reality s nside (negb forward) in
    Ok (Some precompute_full, Some precompute_scaling, precomps).

(** ** transforms/base.py *)

(** base.py:7-87 *)
Definition synthesis_looped (O : s2fft) (f_wav : list nd) (f_scal : nd)
    (L N J_min : Z) (lam : R) (spin spin0 : Z) (s : sampling) (nside : option Z)
    (reality multiresolution : bool) : res nd :=
  _ <- wavelet_shape_check f_wav f_scal L N J_min lam s nside multiresolution ;;
  J <- j_max L lam ;;
  Ls <- scal_bandlimit L J_min lam multiresolution ;;
  flm <- zeros2 L (2 * L - 1) ;;
  f_scal_lm <- b_fwd O f_scal Ls spin s nside reality ;;
  ' (wav_lm, scal_l) <- filters_directional L N J_min lam spin spin0 ;;
  flm <- for_ (zrange J_min (J + 1)) flm (fun j flm =>
    ' (Lj, Nj, L0j) <- LN_j L j N lam multiresolution ;;
    fj <- lrd f_wav (j - J_min) ;;
    temp <- b_wfwd O fj Lj Nj L0j s reality nside ;;
    for_ (zrange_st (- Nj + 1) Nj 2) flm (fun n flm =>
      for_ (zrange (Z.max (Z.max (Z.abs spin) (Z.abs n)) L0j) Lj) flm (fun el flm =>
        psi <- rd3 wav_lm j el (L - 1 + n) ;;
        for_ (zrange (- el) (el + 1)) flm (fun m flm =>
          x <- rd2 flm el (L - 1 + m) ;;
          t <- rd3 temp (Nj - 1 + n) el (Lj - 1 + m) ;;
          wr2 flm el (L - 1 + m) (Cplus x (Cmult t psi)))))) ;;
  flm <- for_ (zrange (Z.abs spin) Ls) flm (fun el flm =>
    sl <- rd1 scal_l el ;;
    let phi := RtoC (sqrt (4 * PI / IZR (2 * el + 1)) * sl) in
    x <- rd2 flm el (0 + L - 1) ;;
    y <- rd2 f_scal_lm el (Ls - 1 + 0) ;;
    flm <- wr2 flm el (0 + L - 1) (Cplus x (Cmult y phi)) ;;
    for_ (zrange 1 (el + 1)) flm (fun m flm =>
      x <- rd2 flm el (L - 1 + m) ;;
      y <- rd2 f_scal_lm el (Ls - 1 + m) ;;
      flm <- wr2 flm el (L - 1 + m) (Cplus x (Cmult y phi)) ;;
      if reality then
        z <- rd2 flm el (m + L - 1) ;;
        x <- rd2 flm el (- m + L - 1) ;;
        wr2 flm el (- m + L - 1) (Cplus x (Cmult (RtoC (msgn m)) (Cconj z)))
      else
        x <- rd2 flm el (- m + L - 1) ;;
        y <- rd2 f_scal_lm el (Ls - 1 - m) ;;
        wr2 flm el (- m + L - 1) (Cplus x (Cmult y phi)))) ;;
  b_inv O flm L spin s nside reality.

(** base.py:90-165 *)
Definition synthesis (O : s2fft) (f_wav : list nd) (f_scal : nd)
    (L N J_min : Z) (lam : R) (spin spin0 : Z) (s : sampling) (nside : option Z)
    (reality multiresolution : bool) : res nd :=
  _ <- wavelet_shape_check f_wav f_scal L N J_min lam s nside multiresolution ;;
  J <- j_max L lam ;;
  Ls <- scal_bandlimit L J_min lam multiresolution ;;
  flm <- zeros2 L (2 * L - 1) ;;
  f_scal_lm <- b_fwd O f_scal Ls spin s nside reality ;;
  ' (wav_lm, scal_l) <- filters_directional_vectorised L N J_min lam spin spin0 ;;
  flm <- for_ (zrange J_min (J + 1)) flm (fun j flm =>
    ' (Lj, Nj, L0j) <- LN_j L j N lam multiresolution ;;
    fj <- lrd f_wav (j - J_min) ;;
    temp <- b_wfwd O fj Lj Nj L0j s reality nside ;;
    w <- islice3 wav_lm j (between L0j Lj) (between2 (L - Nj) (L - 1 + Nj)) ;;
    x <- einsum_ln_nlm_lm w (slice3 temp every2 (from L0j) full) ;;
    upd2 Cplus flm (between L0j Lj) (between (L - Lj) (L - 1 + Lj)) x) ;;
  phi <- mul1 (slice1 scal_l (upto Ls)) (sca_weights Ls) ;;
  x <- einsum_lm_l_lm f_scal_lm phi ;;
  flm <- upd2 Cplus flm (upto Ls) (between (L - Ls) (L - 1 + Ls)) x ;;
  b_inv O flm L spin s nside reality.

(** base.py:168-259 *)
Definition analysis_looped (O : s2fft) (f : nd)
    (L N J_min : Z) (lam : R) (spin spin0 : Z) (s : sampling) (nside : option Z)
    (reality multiresolution : bool) : res (list nd * nd) :=
  J <- j_max L lam ;;
  Ls <- scal_bandlimit L J_min lam multiresolution ;;
  f_scal_lm <- construct_flm L J_min lam multiresolution ;;
  f_wav_lmn <- construct_flmn L N J_min lam multiresolution ;;
  ' (wav_lm, scal_l) <- filters_directional L N J_min lam spin spin0 ;;
  flm <- b_fwd O f L spin s nside reality ;;
  f_wav_lmn <- for_ (zrange J_min (J + 1)) f_wav_lmn (fun j f_wav_lmn =>
    ' (Lj, Nj, L0j) <- LN_j L j N lam multiresolution ;;
    (* f_wav_lmn[j - J_min] is updated in place: read it once, write it back *)
    a <- lrd f_wav_lmn (j - J_min) ;;
    a <- for_ (zrange_st (- Nj + 1) Nj 2) a (fun n a =>
      for_ (zrange (Z.max (Z.max (Z.abs spin) (Z.abs n)) L0j) Lj) a (fun el a =>
        w <- rd3 wav_lm j el (L - 1 + n) ;;
        let psi := Cmult (Cconj w) (RtoC (8 * (PI * PI) / IZR (2 * el + 1))) in
        x <- rd2 flm el (L - 1 + 0) ;;
        a <- wr3 a (Nj - 1 + n) el (Lj - 1) (Cmult x psi) ;;
        for_ (zrange 1 (el + 1)) a (fun m a =>
          x <- rd2 flm el (L - 1 + m) ;;
          a <- wr3 a (Nj - 1 + n) el (Lj - 1 + m) (Cmult x psi) ;;
          if reality then
            y <- rd3 a (Nj - 1 + n) el (Lj - 1 + m) ;;
            wr3 a (Nj - 1 - n) el (Lj - 1 - m) (Cmult (RtoC (msgn (m + n))) (Cconj y))
          else
            x <- rd2 flm el (L - 1 - m) ;;
            wr3 a (Nj - 1 + n) el (Lj - 1 - m) (Cmult x psi)))) ;;
    lwr f_wav_lmn (j - J_min) a) ;;
  f_scal_lm <- for_ (zrange (Z.abs spin) Ls) f_scal_lm (fun el f_scal_lm =>
    sl <- rd1 scal_l el ;;
    let phi := RtoC (sqrt (4 * PI / IZR (2 * el + 1)) * sl) in
    x <- rd2 flm el (L - 1 + 0) ;;
    f_scal_lm <- wr2 f_scal_lm el (Ls - 1 + 0) (Cmult x phi) ;;
    for_ (zrange 1 (el + 1)) f_scal_lm (fun m f_scal_lm =>
      x <- rd2 flm el (L - 1 + m) ;;
      f_scal_lm <- wr2 f_scal_lm el (Ls - 1 + m) (Cmult x phi) ;;
      if reality then
        y <- rd2 f_scal_lm el (Ls - 1 + m) ;;
        wr2 f_scal_lm el (Ls - 1 - m) (Cmult (RtoC (msgn m)) (Cconj y))
      else
        x <- rd2 flm el (L - 1 - m) ;;
        wr2 f_scal_lm el (Ls - 1 - m) (Cmult x phi))) ;;
  f_wav <- construct_f L N J_min lam s nside multiresolution ;;
  f_wav <- for_ (zrange J_min (J + 1)) f_wav (fun j f_wav =>
    ' (Lj, Nj, L0j) <- LN_j L j N lam multiresolution ;;
    a <- lrd f_wav_lmn (j - J_min) ;;
    y <- b_winv O a Lj Nj L0j s reality nside ;;
    lwr f_wav (j - J_min) y) ;;
  f_scal <- b_inv O f_scal_lm Ls spin s nside reality ;;
  Ok (f_wav, f_scal).

(** base.py:262-339.  Line 309 passes multiresolution in the position of
    nside; the result is only used as a list to be overwritten. *)
Definition analysis (O : s2fft) (f : nd)
    (L N J_min : Z) (lam : R) (spin spin0 : Z) (s : sampling) (nside : option Z)
    (reality multiresolution scattering : bool) : res (list nd * nd) :=
  J <- j_max L lam ;;
  Ls <- scal_bandlimit L J_min lam multiresolution ;;
  f_scal_lm <- construct_flm L J_min lam multiresolution ;;
  f_wav_lmn <- construct_flmn L N J_min lam multiresolution ;;
  f_wav <- construct_f L N J_min lam s (Some (if multiresolution then 1 else 0)) false ;;
  ' (wav_lm, scal_l) <- filters_directional_vectorised L N J_min lam spin spin0 ;;
  wav_lm <- einsum_ijk_j_ijk (map3 Cconj wav_lm) (wig_weights L) ;;
  flm <- b_fwd O f L spin s nside reality ;;
  ' (_, f_wav) <- for_ (zrange J_min (J + 1)) (f_wav_lmn, f_wav) (fun j st =>
    let '(f_wav_lmn, f_wav) := st in
    ' (Lj, Nj, L0j) <- LN_j L j N lam multiresolution ;;
    a <- lrd f_wav_lmn (j - J_min) ;;
    w <- islice3 wav_lm j (between L0j Lj) (between2 (L - Nj) (L - 1 + Nj)) ;;
    x <- einsum_lm_ln_nlm
           (slice2 flm (between L0j Lj) (between (L - Lj) (L - 1 + Lj))) w ;;
    a <- upd3 assign a every2 (from L0j) full x ;;
    f_wav_lmn <- lwr f_wav_lmn (j - J_min) a ;;
    y <- b_winv O a Lj Nj L0j s reality nside ;;
    f_wav <- lwr f_wav (j - J_min) y ;;
    f_wav <- (if scattering then
                z <- lrd f_wav (j - J_min) ;; lwr f_wav (j - J_min) (nd_abs z)
              else Ok f_wav) ;;
    Ok (f_wav_lmn, f_wav)) ;;
  phi <- mul1 (slice1 scal_l (upto Ls)) (sca_weights Ls) ;;
  f_scal_lm <- einsum_lm_l_lm
                 (slice2 flm (upto Ls) (between (L - Ls) (L - 1 + Ls))) phi ;;
  f_scal <- b_inv O f_scal_lm Ls spin s nside reality ;;
  Ok (f_wav, f_scal).

(** ** transforms/wavelet.py (JAX, recursive) *)

(** wavelet.py:11-101 *)
Definition jax_synthesis (O : s2fft) (f_wav : list nd) (f_scal : nd)
    (L N J_min : Z) (lam : R) (spin : Z) (s : sampling) (nside : option Z)
    (reality : bool) (filters : option (arr3 C * arr1 R)) (precomps : option (list rkern))
  : res nd :=
  precomps <- (match precomps with
               | None => generate_wigner_precomputes L N J_min lam s nside true reality
               | Some p => Ok p
               end) ;;
  J <- j_max L lam ;;
  Ls <- scal_bandlimit L J_min lam true ;;
  flm <- zeros2 L (2 * L - 1) ;;
  f_scal_lm <- j_fwd O f_scal Ls spin nside s reality ;;
  flm <- for_ (zrange J_min (J + 1)) flm (fun j flm =>
    ' (Lj, Nj, L0j) <- LN_j L j N lam true ;;
    fj <- lrd f_wav (j - J_min) ;;
    pj <- lrd precomps (j - J_min) ;;
    temp <- j_wfwd O fj Lj Nj nside s reality pj L0j ;;
    fl <- need filters ;;
    w <- islice3 (fst fl) j (between L0j Lj) (between2 (L - Nj) (L - 1 + Nj)) ;;
    x <- einsum_ln_nlm_lm w (slice3 temp every2 (from L0j) full) ;;
    upd2 Cplus flm (between L0j Lj) (between (L - Lj) (L - 1 + Lj)) x) ;;
  fl <- need filters ;;
  phi <- mul1 (slice1 (snd fl) (upto Ls)) (sca_weights Ls) ;;
  x <- einsum_lm_l_lm f_scal_lm phi ;;
  flm <- upd2 Cplus flm (upto Ls) (between (L - Ls) (L - 1 + Ls)) x ;;
  j_inv O flm L spin nside s reality.

(** wavelet.py:105-210.  The .at[...].add into a zero array is an addition. *)
Definition jax_analysis (O : s2fft) (f : nd)
    (L N J_min : Z) (lam : R) (spin : Z) (s : sampling) (nside : option Z)
    (reality : bool) (filters : option (arr3 C * arr1 R)) (precomps : option (list rkern))
  : res (list nd * nd) :=
  precomps <- (match precomps with
               | None => generate_wigner_precomputes L N J_min lam s nside false reality
               | Some p => Ok p
               end) ;;
  J <- j_max L lam ;;
  Ls <- scal_bandlimit L J_min lam true ;;
  fl <- need filters ;;
  wav_lm <- einsum_ijk_j_ijk (map3 Cconj (fst fl)) (wig_weights L) ;;
  flm <- j_fwd O f L spin nside s reality ;;
  f_wav_lmn <- construct_flmn_jax L N J_min (Some J) lam true ;;
  ' (_, f_wav) <- for_ (zrange J_min (J + 1)) (f_wav_lmn, []) (fun j st =>
    let '(f_wav_lmn, f_wav) := st in
    ' (Lj, Nj, L0j) <- LN_j L j N lam true ;;
    a <- lrd f_wav_lmn (j - J_min) ;;
    w <- islice3 wav_lm j (between L0j Lj) (between2 (L - Nj) (L - 1 + Nj)) ;;
    x <- einsum_lm_ln_nlm
           (slice2 flm (between L0j Lj) (between (L - Lj) (L - 1 + Lj))) w ;;
    a <- upd3 Cplus a every2 (from L0j) full x ;;
    f_wav_lmn <- lwr f_wav_lmn (j - J_min) a ;;
    pj <- lrd precomps (j - J_min) ;;
    y <- j_winv O a Lj Nj nside s reality pj L0j ;;
    Ok (f_wav_lmn, f_wav ++ [y])) ;;
  phi <- mul1 (slice1 (snd fl) (upto Ls)) (sca_weights Ls) ;;
  temp <- einsum_lm_l_lm (slice2 flm (upto Ls) (between (L - Ls) (L - 1 + Ls))) phi ;;
  f_scal <- (if Ls =? 1
             then Ok (nd_of2 (map2 (fun x => Cmult x (RtoC (sqrt (1 / (4 * PI))))) temp))
             else j_inv O temp Ls spin nside s reality) ;;
  Ok (f_wav, f_scal).

(** wavelet.py:214-305 *)
Definition jax_flm_to_analysis (O : s2fft) (flm : arr2 C)
    (L N J_min : Z) (J_max : option Z) (lam : R) (s : sampling) (nside : option Z)
    (reality : bool) (filters : option (arr3 C)) (precomps : option (list rkern))
  : res (list nd) :=
  precomps <- (match precomps with
               | None => generate_wigner_precomputes L N J_min lam s nside false reality
               | Some p => Ok p
               end) ;;
  J <- pick_J L lam J_max ;;
  fl <- need filters ;;
  wav_lm <- einsum_ijk_j_ijk (map3 Cconj fl) (wig_weights L) ;;
  f_wav_lmn <- construct_flmn_jax L N J_min (Some J) lam true ;;
  ' (_, f_wav) <- for_ (zrange J_min (J + 1)) (f_wav_lmn, []) (fun j st =>
    let '(f_wav_lmn, f_wav) := st in
    ' (Lj, Nj, L0j) <- LN_j L j N lam true ;;
    a <- lrd f_wav_lmn (j - J_min) ;;
    w <- islice3 wav_lm j (between L0j Lj) (between2 (L - Nj) (L - 1 + Nj)) ;;
    x <- einsum_lm_ln_nlm
           (slice2 flm (between L0j Lj) (between (L - Lj) (L - 1 + Lj))) w ;;
    a <- upd3 Cplus a every2 (from L0j) full x ;;
    f_wav_lmn <- lwr f_wav_lmn (j - J_min) a ;;
    pj <- lrd precomps (j - J_min) ;;
    y <- j_winv O a Lj Nj nside s reality pj L0j ;;
    Ok (f_wav_lmn, f_wav ++ [y])) ;;
  Ok f_wav.

(** ** transforms/wavelet_precompute.py (JAX, precomputed kernels) *)

Definition precomputes : Type := option skern * option skern * list wkern.

(** wavelet_precompute.py:10-111 *)
Definition pre_synthesis (O : s2fft) (f_wav : list nd) (f_scal : nd)
    (L N J_min : Z) (lam : R) (spin : Z) (s : sampling) (nside : option Z)
    (reality : bool) (filters : option (arr3 C * arr1 R)) (precomps : option precomputes)
  : res nd :=
  match precomps with
  | None => Err ValueError
  | Some (p0, p1, p2) =>
    J <- j_max L lam ;;
    Ls <- scal_bandlimit L J_min lam true ;;
    flm <- zeros2 L (2 * L - 1) ;;
    k1 <- need p1 ;;
    f_scal_lm <- p_fwd O f_scal k1 Ls s reality spin nside ;;
    flm <- for_ (zrange J_min (J + 1)) flm (fun j flm =>
      ' (Lj, Nj, L0j) <- LN_j L j N lam true ;;
      let shift := if j <? J then 0 else -1 in
      fj <- lrd f_wav (j - J_min) ;;
      pj <- lrd p2 (j - J_min + shift) ;;
      temp <- p_wfwd O fj pj Lj Nj s reality nside ;;
      fl <- need filters ;;
      w <- islice3 (fst fl) j (between L0j Lj) (between2 (L - Nj) (L - 1 + Nj)) ;;
      x <- einsum_ln_nlm_lm w (slice3 temp every2 (from L0j) full) ;;
      upd2 Cplus flm (between L0j Lj) (between (L - Lj) (L - 1 + Lj)) x) ;;
    fl <- need filters ;;
    phi <- mul1 (slice1 (snd fl) (upto Ls)) (sca_weights Ls) ;;
    x <- einsum_lm_l_lm f_scal_lm phi ;;
    flm <- upd2 Cplus flm (upto Ls) (between (L - Ls) (L - 1 + Ls)) x ;;
    k0 <- need p0 ;;
    p_inv O flm k0 L s reality spin nside
  end.

(** wavelet_precompute.py:115-220 *)
Definition pre_analysis (O : s2fft) (f : nd)
    (L N J_min : Z) (lam : R) (spin : Z) (s : sampling) (nside : option Z)
    (reality : bool) (filters : option (arr3 C * arr1 R)) (precomps : option precomputes)
  : res (list nd * nd) :=
  match precomps with
  | None => Err ValueError
  | Some (p0, p1, p2) =>
    J <- j_max L lam ;;
    Ls <- scal_bandlimit L J_min lam true ;;
    fl <- need filters ;;
    wav_lm <- einsum_ijk_j_ijk (map3 Cconj (fst fl)) (wig_weights L) ;;
    k0 <- need p0 ;;
    flm <- p_fwd O f k0 L s reality spin nside ;;
    f_wav_lmn <- construct_flmn_jax L N J_min (Some J) lam true ;;
    ' (_, f_wav) <- for_ (zrange J_min (J + 1)) (f_wav_lmn, []) (fun j st =>
      let '(f_wav_lmn, f_wav) := st in
      ' (Lj, Nj, L0j) <- LN_j L j N lam true ;;
      a <- lrd f_wav_lmn (j - J_min) ;;
      w <- islice3 wav_lm j (between L0j Lj) (between2 (L - Nj) (L - 1 + Nj)) ;;
      x <- einsum_lm_ln_nlm
             (slice2 flm (between L0j Lj) (between (L - Lj) (L - 1 + Lj))) w ;;
      a <- upd3 Cplus a every2 (from L0j) full x ;;
      f_wav_lmn <- lwr f_wav_lmn (j - J_min) a ;;
      let shift := if j <? J then 0 else -1 in
      pj <- lrd p2 (j - J_min + shift) ;;
      y <- p_winv O a pj Lj Nj s reality nside ;;
      Ok (f_wav_lmn, f_wav ++ [y])) ;;
    phi <- mul1 (slice1 (snd fl) (upto Ls)) (sca_weights Ls) ;;
    temp <- einsum_lm_l_lm (slice2 flm (upto Ls) (between (L - Ls) (L - 1 + Ls))) phi ;;
    f_scal <- (if Ls =? 1
               then Ok (nd_of2 (map2 (fun x => Cmult x (RtoC (sqrt (1 / (4 * PI))))) temp))
               else k1 <- need p1 ;; p_inv O temp k1 Ls s reality spin nside) ;;
    Ok (f_wav, f_scal)
  end.

(** wavelet_precompute.py:224-320 *)
Definition pre_flm_to_analysis (O : s2fft) (flm : arr2 C)
    (L N J_min : Z) (J_max : option Z) (lam : R) (s : sampling) (nside : option Z)
    (reality : bool) (filters : option (arr3 C)) (precomps : option precomputes)
    (precomp_shift : bool) : res (list nd) :=
  match precomps with
  | None => Err ValueError
  | Some (_, _, p2) =>
    J <- pick_J L lam J_max ;;
    fl <- need filters ;;
    wav_lm <- einsum_ijk_j_ijk (map3 Cconj fl) (wig_weights L) ;;
    f_wav_lmn <- construct_flmn_jax L N J_min (Some J) lam true ;;
    ' (_, f_wav) <- for_ (zrange J_min (J + 1)) (f_wav_lmn, []) (fun j st =>
      let '(f_wav_lmn, f_wav) := st in
      ' (Lj, Nj, L0j) <- LN_j L j N lam true ;;
      a <- lrd f_wav_lmn (j - J_min) ;;
      w <- islice3 wav_lm j (between L0j Lj) (between2 (L - Nj) (L - 1 + Nj)) ;;
      x <- einsum_lm_ln_nlm
             (slice2 flm (between L0j Lj) (between (L - Lj) (L - 1 + Lj))) w ;;
      a <- upd3 Cplus a every2 (from L0j) full x ;;
      f_wav_lmn <- lwr f_wav_lmn (j - J_min) a ;;
      let shift := if j <? J then 0 else -1 in
      let shift := if precomp_shift then shift else 0 in
      pj <- lrd p2 (j - J_min + shift) ;;
      y <- p_winv O a pj Lj Nj s reality nside ;;
      Ok (f_wav_lmn, f_wav ++ [y])) ;;
    Ok f_wav
  end.

(** ** transforms/wavelet_precompute_torch.py *)

(** wavelet_precompute_torch.py:7-105 *)
Definition torch_synthesis (O : s2fft) (f_wav : list nd) (f_scal : nd)
    (L N J_min : Z) (lam : R) (spin : Z) (s : sampling) (nside : option Z)
    (reality : bool) (filters : option (arr3 C * arr1 R)) (precomps : option precomputes)
  : res nd :=
  match precomps with
  | None => Err ValueError
  | Some (p0, p1, p2) =>
    J <- j_max L lam ;;
    Ls <- scal_bandlimit L J_min lam true ;;
    flm <- zeros2 L (2 * L - 1) ;;
    k1 <- need p1 ;;
    f_scal_lm <- t_fwd O f_scal k1 Ls s reality spin nside ;;
    flm <- for_ (zrange J_min (J + 1)) flm (fun j flm =>
      ' (Lj, Nj, L0j) <- LN_j L j N lam true ;;
      let shift := if j <? J then 0 else -1 in
      fj <- lrd f_wav (j - J_min) ;;
      pj <- lrd p2 (j - J_min + shift) ;;
      temp <- t_wfwd O fj pj Lj Nj s reality nside ;;
      fl <- need filters ;;
      w <- islice3 (fst fl) j (between L0j Lj) (between2 (L - Nj) (L - 1 + Nj)) ;;
      x <- einsum_ln_nlm_lm w (slice3 temp every2 (from L0j) full) ;;
      upd2 Cplus flm (between L0j Lj) (between (L - Lj) (L - 1 + Lj)) x) ;;
    fl <- need filters ;;
    phi <- mul1 (slice1 (snd fl) (upto Ls)) (sca_weights Ls) ;;
    x <- einsum_lm_l_lm f_scal_lm phi ;;
    flm <- upd2 Cplus flm (upto Ls) (between (L - Ls) (L - 1 + Ls)) x ;;
    k0 <- need p0 ;;
    t_inv O flm k0 L s reality spin nside
  end.

(** wavelet_precompute_torch.py:108-211.  f_wav is a list of empty lists whose
    entries are overwritten one per scale; the model keeps an optional pixel
    array per entry ([None] is the initial empty list). *)
Definition torch_analysis (O : s2fft) (f : nd)
    (L N J_min : Z) (lam : R) (spin : Z) (s : sampling) (nside : option Z)
    (reality : bool) (filters : option (arr3 C * arr1 R)) (precomps : option precomputes)
  : res (list (option nd) * nd) :=
  match precomps with
  | None => Err ValueError
  | Some (p0, p1, p2) =>
    J <- j_max L lam ;;
    Ls <- scal_bandlimit L J_min lam true ;;
    f_wav_lmn <- construct_flmn_torch L N J_min (Some J) lam true ;;
    f_wav <- construct_f_torch L J_min (Some J) lam ;;
    let f_wav := map (fun _ => @None nd) f_wav in
    fl <- need filters ;;
    wav_lm <- einsum_ijk_j_ijk (map3 Cconj (fst fl)) (wig_weights L) ;;
    k0 <- need p0 ;;
    flm <- t_fwd O f k0 L s reality spin nside ;;
    ' (_, f_wav) <- for_ (zrange J_min (J + 1)) (f_wav_lmn, f_wav) (fun j st =>
      let '(f_wav_lmn, f_wav) := st in
      ' (Lj, Nj, L0j) <- LN_j L j N lam true ;;
      a <- lrd f_wav_lmn (j - J_min) ;;
      w <- islice3 wav_lm j (between L0j Lj) (between2 (L - Nj) (L - 1 + Nj)) ;;
      x <- einsum_lm_ln_nlm
             (slice2 flm (between L0j Lj) (between (L - Lj) (L - 1 + Lj))) w ;;
      a <- upd3 Cplus a every2 (from L0j) full x ;;
      f_wav_lmn <- lwr f_wav_lmn (j - J_min) a ;;
      let shift := if j <? J then 0 else -1 in
      pj <- lrd p2 (j - J_min + shift) ;;
      y <- t_winv O a pj Lj Nj s reality nside ;;
      f_wav <- lwr f_wav (j - J_min) (Some y) ;;
      Ok (f_wav_lmn, f_wav)) ;;
    phi <- mul1 (slice1 (snd fl) (upto Ls)) (sca_weights Ls) ;;
    temp <- einsum_lm_l_lm (slice2 flm (upto Ls) (between (L - Ls) (L - 1 + Ls))) phi ;;
    f_scal <- (if Ls =? 1
               then Ok (nd_of2 (map2 (fun x => Cmult x (RtoC (sqrt (1 / (4 * PI))))) temp))
               else k1 <- need p1 ;; t_inv O temp k1 Ls s reality spin nside) ;;
    Ok (f_wav, f_scal)
  end.

(** wavelet_precompute_torch.py:214-297 *)
Definition torch_flm_to_analysis (O : s2fft) (flm : arr2 C)
    (L N J_min : Z) (J_max : option Z) (lam : R) (s : sampling) (nside : option Z)
    (reality : bool) (filters : option (arr3 C)) (precomps : option precomputes)
  : res (list (option nd)) :=
  match precomps with
  | None => Err ValueError
  | Some (_, _, p2) =>
    J <- pick_J L lam J_max ;;
    f_wav_lmn <- construct_flmn_torch L N J_min (Some J) lam true ;;
    f_wav <- construct_f_torch L J_min (Some J) lam ;;
    let f_wav := map (fun _ => @None nd) f_wav in
    fl <- need filters ;;
    wav_lm <- einsum_ijk_j_ijk (map3 Cconj fl) (wig_weights L) ;;
    ' (_, f_wav) <- for_ (zrange J_min (J + 1)) (f_wav_lmn, f_wav) (fun j st =>
      let '(f_wav_lmn, f_wav) := st in
      ' (Lj, Nj, L0j) <- LN_j L j N lam true ;;
      a <- lrd f_wav_lmn (j - J_min) ;;
      w <- islice3 wav_lm j (between L0j Lj) (between2 (L - Nj) (L - 1 + Nj)) ;;
      x <- einsum_lm_ln_nlm
             (slice2 flm (between L0j Lj) (between (L - Lj) (L - 1 + Lj))) w ;;
      a <- upd3 Cplus a every2 (from L0j) full x ;;
      f_wav_lmn <- lwr f_wav_lmn (j - J_min) a ;;
      let shift := if j <? J then 0 else -1 in
      pj <- lrd p2 (j - J_min + shift) ;;
      y <- t_winv O a pj Lj Nj s reality nside ;;
      f_wav <- lwr f_wav (j - J_min) (Some y) ;;
      Ok (f_wav_lmn, f_wav)) ;;
    Ok f_wav
  end.

(** ** transforms/wavelet_c.py (SSHT C backend) *)

(** ["mw","mwss","dh","gl"].index(sampling.lower()), after the healpix test
    (wavelet_c.py:63-65, 129-131) *)
Definition ssht_sampling (s : sampling) : res Z :=
  match s with
  | HEALPIX => Err ValueError
  | MW => Ok 0 | MWSS => Ok 1 | DH => Ok 2 | GL => Ok 3
  | Unknown => Err ValueError
  end.

(** wavelet_c.py:210-244 *)
Definition c_apply_wavelets (flm : arr2 C) (L N J_min J : Z) (lam : R)
    (filters : option (arr3 C)) : res (list (arr3 C)) :=
  f_wav_lmn <- construct_flmn_jax L N J_min (Some J) lam true ;;
  fl <- need filters ;;
  wav_lm <- einsum_ijk_j_ijk (map3 Cconj fl) (wig_weights L) ;;
  for_ (zrange J_min (J + 1)) f_wav_lmn (fun j f_wav_lmn =>
    ' (Lj, Nj, L0j) <- LN_j L j N lam true ;;
    a <- lrd f_wav_lmn (j - J_min) ;;
    w <- islice3 wav_lm j (between L0j Lj) (between2 (L - Nj) (L - 1 + Nj)) ;;
    x <- einsum_lm_ln_nlm
           (slice2 flm (between L0j Lj) (between (L - Lj) (L - 1 + Lj))) w ;;
    a <- upd3 Cplus a every2 (from L0j) full x ;;
    lwr f_wav_lmn (j - J_min) a).

(** wavelet_c.py:248-258 *)
Definition c_apply_scaling (flm : arr2 C) (L J_min : Z) (lam : R)
    (filters : option (arr1 R)) : res (arr2 C) :=
  Ls <- scal_bandlimit L J_min lam true ;;
  fl <- need filters ;;
  phi <- mul1 (slice1 fl (upto Ls)) (sca_weights Ls) ;;
  einsum_lm_l_lm (slice2 flm (upto Ls) (between (L - Ls) (L - 1 + Ls))) phi.

(** wavelet_c.py:262-290 *)
Definition c_sum (f_wav_lmn : list (arr3 C)) (f_scal_lm : arr2 C) (L N J_min J : Z)
    (lam : R) (filters : option (arr3 C * arr1 R)) : res (arr2 C) :=
  Ls <- scal_bandlimit L J_min lam true ;;
  flm <- zeros2 L (2 * L - 1) ;;
  flm <- for_ (zrange J_min (J + 1)) flm (fun j flm =>
    ' (Lj, Nj, L0j) <- LN_j L j N lam true ;;
    fl <- need filters ;;
    w <- islice3 (fst fl) j (between L0j Lj) (between2 (L - Nj) (L - 1 + Nj)) ;;
    a <- lrd f_wav_lmn (j - J_min) ;;
    x <- einsum_ln_nlm_lm w (slice3 a every2 (from L0j) full) ;;
    upd2 Cplus flm (between L0j Lj) (between (L - Lj) (L - 1 + Lj)) x) ;;
  fl <- need filters ;;
  phi <- mul1 (slice1 (snd fl) (upto Ls)) (sca_weights Ls) ;;
  x <- einsum_lm_l_lm f_scal_lm phi ;;
  upd2 Cplus flm (upto Ls) (between (L - Ls) (L - 1 + Ls)) x.

(** wavelet_c.py:10-85 *)
Definition ssht_synthesis (O : s2fft) (f_wav : list nd) (f_scal : nd)
    (L N J_min : Z) (lam : R) (spin : Z) (s : sampling)
    (reality : bool) (filters : option (arr3 C * arr1 R)) : res nd :=
  idx <- ssht_sampling s ;;
  J <- j_max L lam ;;
  Ls <- scal_bandlimit L J_min lam true ;;
  f_scal_lm <- c_fwd O (if reality then nd_real f_scal else f_scal) Ls spin reality idx ;;
  f_wav_lmn <- for_ (zrange J_min (J + 1)) [] (fun j f_wav_lmn =>
    ' (Lj, Nj, L0j) <- LN_j L j N lam true ;;
    fj <- lrd f_wav (j - J_min) ;;
    a <- c_wfwd O fj Lj Nj L0j s reality ;;
    Ok (f_wav_lmn ++ [a])) ;;
  flm <- c_sum f_wav_lmn f_scal_lm L N J_min J lam filters ;;
  c_inv O flm L spin reality idx.

(** wavelet_c.py:88-153 *)
Definition ssht_analysis (O : s2fft) (f : nd)
    (L N J_min : Z) (lam : R) (spin : Z) (s : sampling)
    (reality : bool) (filters : option (arr3 C * arr1 R)) : res (list nd * nd) :=
  idx <- ssht_sampling s ;;
  J <- j_max L lam ;;
  Ls <- scal_bandlimit L J_min lam true ;;
  flm <- c_fwd O f L spin reality idx ;;
  fl <- need filters ;;
  f_wav_lmn <- c_apply_wavelets flm L N J_min J lam (Some (fst fl)) ;;
  flm_scal <- c_apply_scaling flm L J_min lam (Some (snd fl)) ;;
  f_wav <- for_ (zrange J_min (J + 1)) [] (fun j f_wav =>
    ' (Lj, Nj, L0j) <- LN_j L j N lam true ;;
    a <- lrd f_wav_lmn (j - J_min) ;;
    y <- c_winv O a Lj Nj L0j s reality ;;
    Ok (f_wav ++ [y])) ;;
  f_scal <- (if Ls =? 1
             then Ok (nd_of2 (map2 (fun x => Cmult x (RtoC (sqrt (1 / (4 * PI))))) flm_scal))
             else c_inv O flm_scal Ls spin reality idx) ;;
  Ok (f_wav, f_scal).

(** wavelet_c.py:156-206 *)
Definition ssht_flm_to_analysis (O : s2fft) (flm : arr2 C)
    (L N J_min : Z) (J_max : option Z) (lam : R) (s : sampling) (reality : bool)
    (filters : option (arr3 C)) : res (list nd) :=
  J <- pick_J L lam J_max ;;
  f_wav_lmn <- c_apply_wavelets flm L N J_min J lam filters ;;
  for_ (zrange J_min (J + 1)) [] (fun j f_wav =>
    ' (Lj, Nj, L0j) <- LN_j L j N lam true ;;
    a <- lrd f_wav_lmn (j - J_min) ;;
    y <- c_winv O a Lj Nj L0j s reality ;;
    Ok (f_wav ++ [y])).
