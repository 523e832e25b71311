(** * transforms/wavelet.py and transforms/wavelet_precompute.py in binary64

    With jax_enable_x64, which the package asks for.  [J] is the value of samples.j_max, [fsum l m] how
    jnp.einsum adds up a list for the entry (l, m) of its result. *)

From Coq Require Import ZArith Reals List Bool.
From Flocq Require Import Core IEEE754.BinarySingleNaN.
From Verif Require Import Py ModelSamples ModelTransforms ModelFloat ModelFloatDir ModelFloatTrans.
Import ListNotations.
Open Scope Z_scope.

(** s2fft's JAX entry points on complex128 arrays, arguments as in ModelTransforms.v *)
Record jax64 := Jax64 {
  jf64 : nd64 -> Z -> Z -> option Z -> sampling -> bool -> res (arr2 c64);
  ji64 : arr2 c64 -> Z -> Z -> option Z -> sampling -> bool -> res nd64;
  jwf64 : nd64 -> Z -> Z -> option Z -> sampling -> bool -> rkern -> Z -> res (arr3 c64);
  jwi64 : arr3 c64 -> Z -> Z -> option Z -> sampling -> bool -> rkern -> Z -> res nd64;
  pf64 : nd64 -> skern -> Z -> sampling -> bool -> Z -> option Z -> res (arr2 c64);
  pi64 : arr2 c64 -> skern -> Z -> sampling -> bool -> Z -> option Z -> res nd64;
  pwf64 : nd64 -> wkern -> Z -> Z -> sampling -> bool -> option Z -> res (arr3 c64);
  pwi64 : arr3 c64 -> wkern -> Z -> Z -> sampling -> bool -> option Z -> res nd64
}.

(** a two-dimensional array as an array of pixels *)
Definition nd64_of2 (a : arr2 c64) : nd64 :=
  Nd64 [rows a; cols a] (fun ix => match ix with [i; j] => get2 a i j | _ => creal (fint 0) end).
(** temp * jnp.sqrt(1 / (4 * jnp.pi)) *)
Definition one_pixel64 (a : arr2 c64) : nd64 :=
  nd64_of2 (map2 (fun x => cmul x (creal (fsqrt (fdiv (fint 1) (fmul (fint 4) fpi))))) a).

(** samples.py:481-520, for a given J_max *)
Definition construct_flmn_jax_fp (fpow : f64 -> Z -> f64) (L N J_min J_max : Z) (lam : f64) (multiresolution : bool)
  : res (list (arr3 c64)) :=
  for_ (zrange J_min (J_max + 1)) [] (fun j f =>
    ' (Lj, Nj, _) <- LN_j_fp fpow L j N lam multiresolution ;;
    z <- zeros3 (2 * Nj - 1) Lj (2 * Lj - 1) ;;
    Ok (f ++ [z])).

(** construct.py:82-132 *)
Definition generate_wigner_precomputes_fp (fpow : f64 -> Z -> f64) (J L N J_min : Z) (lam : f64) (s : sampling)
    (nside : option Z) (forward reality : bool) : res (list rkern) :=
  for_ (zrange J_min (J + 1)) [] (fun j precomps =>
    ' (Lj, Nj, L0j) <- LN_j_fp fpow L j N lam true ;;
    Ok (precomps ++ [RKern Lj Nj s nside forward reality L0j])).
(** construct.py:13-79 *)
Definition generate_full_precomputes_fp (fpow : f64 -> Z -> f64) (J L N J_min : Z) (lam : f64) (s : sampling)
    (nside : option Z) (forward reality nospherical : bool)
  : res (option skern * option skern * list wkern) :=
  precomps <- for_ (zrange J_min J) [] (fun j precomps =>
    ' (Lj, Nj, _) <- LN_j_fp fpow L j N lam true ;;
    Ok (precomps ++ [WKern Lj Nj reality s nside forward])) ;;
  Ls <- scal_bandlimit_fp fpow L J_min lam true ;;
  if nospherical then Ok (None, None, precomps)
  else
    let precompute_scaling := SKern Ls 0 reality s nside forward in
    let precompute_full := SKern L 0 reality s nside (negb forward) in
    Ok (Some precompute_full, Some precompute_scaling, precomps).

(** wavelet.py:11-101 *)
Definition jax_synthesis_fp (fpow : f64 -> Z -> f64) (fsum : Z -> Z -> list f64 -> f64) (O : jax64) (J : Z)
    (f_wav : list nd64) (f_scal : nd64) (L N J_min : Z) (lam : f64) (spin : Z) (s : sampling) (nside : option Z)
    (reality : bool) (filters : option (arr3 c64 * arr1 f64)) (precomps : option (list rkern)) : res nd64 :=
  precomps <- (match precomps with
               | None => generate_wigner_precomputes_fp fpow J L N J_min lam s nside true reality
               | Some p => Ok p
               end) ;;
  Ls <- scal_bandlimit_fp fpow L J_min lam true ;;
  flm <- zeros2 L (2 * L - 1) ;;
  f_scal_lm <- jf64 O f_scal Ls spin nside s reality ;;
  flm <- for_ (zrange J_min (J + 1)) flm (fun j flm =>
    ' (Lj, Nj, L0j) <- LN_j_fp fpow L j N lam true ;;
    fj <- lrd f_wav (j - J_min) ;;
    pj <- lrd precomps (j - J_min) ;;
    temp <- jwf64 O fj Lj Nj nside s reality pj L0j ;;
    fl <- need filters ;;
    w <- islice3 (fst fl) j (between L0j Lj) (between2 (L - Nj) (L - 1 + Nj)) ;;
    x <- einsum_ln_nlm_lm_fp fsum w (slice3 temp every2 (from L0j) full) ;;
    upd2 cadd flm (between L0j Lj) (between (L - Lj) (L - 1 + Lj)) x) ;;
  fl <- need filters ;;
  phi <- mul1_fp (slice1 (snd fl) (upto Ls)) (sca_weights_fp Ls) ;;
  x <- einsum_lm_l_lm_fp f_scal_lm phi ;;
  flm <- upd2 cadd flm (upto Ls) (between (L - Ls) (L - 1 + Ls)) x ;;
  ji64 O flm L spin nside s reality.

(** wavelet.py:105-210 *)
Definition jax_analysis_fp (fpow : f64 -> Z -> f64) (O : jax64) (J : Z) (f : nd64)
    (L N J_min : Z) (lam : f64) (spin : Z) (s : sampling) (nside : option Z)
    (reality : bool) (filters : option (arr3 c64 * arr1 f64)) (precomps : option (list rkern))
  : res (list nd64 * nd64) :=
  precomps <- (match precomps with
               | None => generate_wigner_precomputes_fp fpow J L N J_min lam s nside false reality
               | Some p => Ok p
               end) ;;
  Ls <- scal_bandlimit_fp fpow L J_min lam true ;;
  fl <- need filters ;;
  wav_lm <- einsum_jln_l_fp (map3 cconj64 (fst fl)) (wig_weights_fp L) ;;
  flm <- jf64 O f L spin nside s reality ;;
  f_wav_lmn <- construct_flmn_jax_fp fpow L N J_min J lam true ;;
  ' (_, f_wav) <- for_ (zrange J_min (J + 1)) (f_wav_lmn, []) (fun j st =>
    let '(f_wav_lmn, f_wav) := st in
    ' (Lj, Nj, L0j) <- LN_j_fp fpow L j N lam true ;;
    a <- lrd f_wav_lmn (j - J_min) ;;
    w <- islice3 wav_lm j (between L0j Lj) (between2 (L - Nj) (L - 1 + Nj)) ;;
    x <- einsum_lm_ln_nlm_fp
           (slice2 flm (between L0j Lj) (between (L - Lj) (L - 1 + Lj))) w ;;
    a <- upd3 cadd a every2 (from L0j) full x ;;
    f_wav_lmn <- lwr f_wav_lmn (j - J_min) a ;;
    pj <- lrd precomps (j - J_min) ;;
    y <- jwi64 O a Lj Nj nside s reality pj L0j ;;
    Ok (f_wav_lmn, f_wav ++ [y])) ;;
  phi <- mul1_fp (slice1 (snd fl) (upto Ls)) (sca_weights_fp Ls) ;;
  temp <- einsum_lm_l_lm_fp (slice2 flm (upto Ls) (between (L - Ls) (L - 1 + Ls))) phi ;;
  f_scal <- (if Ls =? 1 then Ok (one_pixel64 temp) else ji64 O temp Ls spin nside s reality) ;;
  Ok (f_wav, f_scal).

(** wavelet_precompute.py:10-111 *)
Definition pre_synthesis_fp (fpow : f64 -> Z -> f64) (fsum : Z -> Z -> list f64 -> f64) (O : jax64) (J : Z)
    (f_wav : list nd64) (f_scal : nd64) (L N J_min : Z) (lam : f64) (spin : Z) (s : sampling) (nside : option Z)
    (reality : bool) (filters : option (arr3 c64 * arr1 f64)) (precomps : option precomputes) : res nd64 :=
  match precomps with
  | None => Err ValueError
  | Some (p0, p1, p2) =>
    Ls <- scal_bandlimit_fp fpow L J_min lam true ;;
    flm <- zeros2 L (2 * L - 1) ;;
    k1 <- need p1 ;;
    f_scal_lm <- pf64 O f_scal k1 Ls s reality spin nside ;;
    flm <- for_ (zrange J_min (J + 1)) flm (fun j flm =>
      ' (Lj, Nj, L0j) <- LN_j_fp fpow L j N lam true ;;
      let shift := if j <? J then 0 else -1 in
      fj <- lrd f_wav (j - J_min) ;;
      pj <- lrd p2 (j - J_min + shift) ;;
      temp <- pwf64 O fj pj Lj Nj s reality nside ;;
      fl <- need filters ;;
      w <- islice3 (fst fl) j (between L0j Lj) (between2 (L - Nj) (L - 1 + Nj)) ;;
      x <- einsum_ln_nlm_lm_fp fsum w (slice3 temp every2 (from L0j) full) ;;
      upd2 cadd flm (between L0j Lj) (between (L - Lj) (L - 1 + Lj)) x) ;;
    fl <- need filters ;;
    phi <- mul1_fp (slice1 (snd fl) (upto Ls)) (sca_weights_fp Ls) ;;
    x <- einsum_lm_l_lm_fp f_scal_lm phi ;;
    flm <- upd2 cadd flm (upto Ls) (between (L - Ls) (L - 1 + Ls)) x ;;
    k0 <- need p0 ;;
    pi64 O flm k0 L s reality spin nside
  end.

(** wavelet_precompute.py:115-220 *)
Definition pre_analysis_fp (fpow : f64 -> Z -> f64) (O : jax64) (J : Z) (f : nd64)
    (L N J_min : Z) (lam : f64) (spin : Z) (s : sampling) (nside : option Z)
    (reality : bool) (filters : option (arr3 c64 * arr1 f64)) (precomps : option precomputes)
  : res (list nd64 * nd64) :=
  match precomps with
  | None => Err ValueError
  | Some (p0, p1, p2) =>
    Ls <- scal_bandlimit_fp fpow L J_min lam true ;;
    fl <- need filters ;;
    wav_lm <- einsum_jln_l_fp (map3 cconj64 (fst fl)) (wig_weights_fp L) ;;
    k0 <- need p0 ;;
    flm <- pf64 O f k0 L s reality spin nside ;;
    f_wav_lmn <- construct_flmn_jax_fp fpow L N J_min J lam true ;;
    ' (_, f_wav) <- for_ (zrange J_min (J + 1)) (f_wav_lmn, []) (fun j st =>
      let '(f_wav_lmn, f_wav) := st in
      ' (Lj, Nj, L0j) <- LN_j_fp fpow L j N lam true ;;
      a <- lrd f_wav_lmn (j - J_min) ;;
      w <- islice3 wav_lm j (between L0j Lj) (between2 (L - Nj) (L - 1 + Nj)) ;;
      x <- einsum_lm_ln_nlm_fp
             (slice2 flm (between L0j Lj) (between (L - Lj) (L - 1 + Lj))) w ;;
      a <- upd3 cadd a every2 (from L0j) full x ;;
      f_wav_lmn <- lwr f_wav_lmn (j - J_min) a ;;
      let shift := if j <? J then 0 else -1 in
      pj <- lrd p2 (j - J_min + shift) ;;
      y <- pwi64 O a pj Lj Nj s reality nside ;;
      Ok (f_wav_lmn, f_wav ++ [y])) ;;
    phi <- mul1_fp (slice1 (snd fl) (upto Ls)) (sca_weights_fp Ls) ;;
    temp <- einsum_lm_l_lm_fp (slice2 flm (upto Ls) (between (L - Ls) (L - 1 + Ls))) phi ;;
    f_scal <- (if Ls =? 1 then Ok (one_pixel64 temp)
               else k1 <- need p1 ;; pi64 O temp k1 Ls s reality spin nside) ;;
    Ok (f_wav, f_scal)
  end.
