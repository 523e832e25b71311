(** * transforms/wavelet_precompute_torch.py, transforms/wavelet_c.py and flm_to_analysis in binary64

    [J] is the value of samples.j_max, [fsum l m] how einsum adds up a list for the entry (l, m) of its result. *)

From Coq Require Import ZArith Reals List Bool.
From Flocq Require Import Core IEEE754.BinarySingleNaN.
From Verif Require Import Py ModelSamples ModelTransforms ModelFloat ModelFloatDir ModelFloatTrans ModelFloatJax.
Import ListNotations.
Open Scope Z_scope.

(** s2fft's torch entry points and the SSHT ones on complex128 arrays, arguments as in ModelTransforms.v *)
Record back64 := Back64 {
  tf64 : nd64 -> skern -> Z -> sampling -> bool -> Z -> option Z -> res (arr2 c64);
  ti64 : arr2 c64 -> skern -> Z -> sampling -> bool -> Z -> option Z -> res nd64;
  twf64 : nd64 -> wkern -> Z -> Z -> sampling -> bool -> option Z -> res (arr3 c64);
  twi64 : arr3 c64 -> wkern -> Z -> Z -> sampling -> bool -> option Z -> res nd64;
  cf64 : nd64 -> Z -> Z -> bool -> Z -> res (arr2 c64);
  ci64 : arr2 c64 -> Z -> Z -> bool -> Z -> res nd64;
  cwf64 : nd64 -> Z -> Z -> Z -> sampling -> bool -> res (arr3 c64);
  cwi64 : arr3 c64 -> Z -> Z -> Z -> sampling -> bool -> res nd64
}.

(** f.real *)
Definition nd_real64 (f : nd64) : nd64 := Nd64 (nshape64 f) (fun ix => creal (fst (ndat64 f ix))).
(** J_max if J_max is not None else samples.j_max(L, lam) *)
Definition pick_J64 (J : Z) (J_max : option Z) : Z := match J_max with Some k => k | None => J end.

(** samples.py:523-561, for a given J_max; construct_f_torch (samples.py:265-291) is written out where it is called *)
Definition construct_flmn_torch_fp (fpow : f64 -> Z -> f64) (L N J_min J_max : Z) (lam : f64) (multiresolution : bool)
  : res (list (arr3 c64)) :=
  for_ (zrange J_min (J_max + 1)) [] (fun j f =>
    ' (Lj, Nj, _) <- LN_j_fp fpow L j N lam multiresolution ;;
    z <- zeros3 (2 * Nj - 1) Lj (2 * Lj - 1) ;;
    Ok (f ++ [z])).

(** ** transforms/wavelet.py and transforms/wavelet_precompute.py: flm_to_analysis *)

(** wavelet.py:214-305 *)
Definition jax_flm_to_analysis_fp (fpow : f64 -> Z -> f64) (O : jax64) (J : Z) (flm : arr2 c64)
    (L N J_min : Z) (J_max : option Z) (lam : f64) (s : sampling) (nside : option Z)
    (reality : bool) (filters : option (arr3 c64)) (precomps : option (list rkern)) : res (list nd64) :=
  precomps <- (match precomps with
               | None => generate_wigner_precomputes_fp fpow J L N J_min lam s nside false reality
               | Some p => Ok p
               end) ;;
  let J := pick_J64 J J_max in
  fl <- need filters ;;
  wav_lm <- einsum_jln_l_fp (map3 cconj64 fl) (wig_weights_fp L) ;;
  f_wav_lmn <- construct_flmn_jax_fp fpow L N J_min J lam true ;;
  ' (_, f_wav) <- for_ (zrange J_min (J + 1)) (f_wav_lmn, []) (fun j st =>
    let '(f_wav_lmn, f_wav) := st in
    ' (Lj, Nj, L0j) <- LN_j_fp fpow L j N lam true ;;
    a <- lrd f_wav_lmn (j - J_min) ;;
    w <- islice3 wav_lm j (between L0j Lj) (between2 (L - Nj) (L - 1 + Nj)) ;;
    x <- einsum_lm_ln_nlm_fp
           (slice2 flm (between L0j Lj) (between (L - Lj) (L - 1 + Lj))) w ;;
    a <- upd3 cadd a every2 (from L0j) full x ;;
    f_wav_lmn <- lwr f_wav_lmn (j - J_min) a ;;
    pj <- lrd precomps (j - J_min) ;;
    y <- jwi64 O a Lj Nj nside s reality pj L0j ;;
    Ok (f_wav_lmn, f_wav ++ [y])) ;;
  Ok f_wav.

(** wavelet_precompute.py:223-320 *)
Definition pre_flm_to_analysis_fp (fpow : f64 -> Z -> f64) (O : jax64) (J : Z) (flm : arr2 c64)
    (L N J_min : Z) (J_max : option Z) (lam : f64) (s : sampling) (nside : option Z)
    (reality : bool) (filters : option (arr3 c64)) (precomps : option precomputes) : res (list nd64) :=
  match precomps with
  | None => Err ValueError
  | Some (_, _, p2) =>
    let J := pick_J64 J J_max in
    fl <- need filters ;;
    wav_lm <- einsum_jln_l_fp (map3 cconj64 fl) (wig_weights_fp L) ;;
    f_wav_lmn <- construct_flmn_jax_fp fpow L N J_min J lam true ;;
    ' (_, f_wav) <- for_ (zrange J_min (J + 1)) (f_wav_lmn, []) (fun j st =>
      let '(f_wav_lmn, f_wav) := st in
      ' (Lj, Nj, L0j) <- LN_j_fp fpow L j N lam true ;;
      a <- lrd f_wav_lmn (j - J_min) ;;
      w <- islice3 wav_lm j (between L0j Lj) (between2 (L - Nj) (L - 1 + Nj)) ;;
      x <- einsum_lm_ln_nlm_fp
             (slice2 flm (between L0j Lj) (between (L - Lj) (L - 1 + Lj))) w ;;
      a <- upd3 cadd a every2 (from L0j) full x ;;
      f_wav_lmn <- lwr f_wav_lmn (j - J_min) a ;;
      let shift := if j <? J then 0 else -1 in
      pj <- lrd p2 (j - J_min + shift) ;;
      y <- pwi64 O a pj Lj Nj s reality nside ;;
      Ok (f_wav_lmn, f_wav ++ [y])) ;;
    Ok f_wav
  end.

(** ** transforms/wavelet_precompute_torch.py *)

(** wavelet_precompute_torch.py:7-105 *)
Definition torch_synthesis_fp (fpow : f64 -> Z -> f64) (fsum : Z -> Z -> list f64 -> f64) (O : back64) (J : Z)
    (f_wav : list nd64) (f_scal : nd64) (L N J_min : Z) (lam : f64) (spin : Z) (s : sampling) (nside : option Z)
    (reality : bool) (filters : option (arr3 c64 * arr1 f64)) (precomps : option precomputes) : res nd64 :=
  match precomps with
  | None => Err ValueError
  | Some (p0, p1, p2) =>
    Ls <- scal_bandlimit_fp fpow L J_min lam true ;;
    flm <- zeros2 L (2 * L - 1) ;;
    k1 <- need p1 ;;
    f_scal_lm <- tf64 O f_scal k1 Ls s reality spin nside ;;
    flm <- for_ (zrange J_min (J + 1)) flm (fun j flm =>
      ' (Lj, Nj, L0j) <- LN_j_fp fpow L j N lam true ;;
      let shift := if j <? J then 0 else -1 in
      fj <- lrd f_wav (j - J_min) ;;
      pj <- lrd p2 (j - J_min + shift) ;;
      temp <- twf64 O fj pj Lj Nj s reality nside ;;
      fl <- need filters ;;
      w <- islice3 (fst fl) j (between L0j Lj) (between2 (L - Nj) (L - 1 + Nj)) ;;
      x <- einsum_ln_nlm_lm_fp fsum w (slice3 temp every2 (from L0j) full) ;;
      upd2 cadd flm (between L0j Lj) (between (L - Lj) (L - 1 + Lj)) x) ;;
    fl <- need filters ;;
    phi <- mul1_fp (slice1 (snd fl) (upto Ls)) (sca_weights_fp Ls) ;;
    x <- einsum_lm_l_lm_fp f_scal_lm phi ;;
    flm <- upd2 cadd flm (upto Ls) (between (L - Ls) (L - 1 + Ls)) x ;;
    k0 <- need p0 ;;
    ti64 O flm k0 L s reality spin nside
  end.

(** wavelet_precompute_torch.py:108-211; f_wav as in ModelTransforms.v *)
Definition torch_analysis_fp (fpow : f64 -> Z -> f64) (O : back64) (J : Z) (f : nd64)
    (L N J_min : Z) (lam : f64) (spin : Z) (s : sampling) (nside : option Z)
    (reality : bool) (filters : option (arr3 c64 * arr1 f64)) (precomps : option precomputes)
  : res (list (option nd64) * nd64) :=
  match precomps with
  | None => Err ValueError
  | Some (p0, p1, p2) =>
    Ls <- scal_bandlimit_fp fpow L J_min lam true ;;
    f_wav_lmn <- construct_flmn_torch_fp fpow L N J_min J lam true ;;
    let f_wav := map (fun _ => @None nd64) (zrange J_min (J + 1)) in
    fl <- need filters ;;
    wav_lm <- einsum_jln_l_fp (map3 cconj64 (fst fl)) (wig_weights_fp L) ;;
    k0 <- need p0 ;;
    flm <- tf64 O f k0 L s reality spin nside ;;
    ' (_, f_wav) <- for_ (zrange J_min (J + 1)) (f_wav_lmn, f_wav) (fun j st =>
      let '(f_wav_lmn, f_wav) := st in
      ' (Lj, Nj, L0j) <- LN_j_fp fpow L j N lam true ;;
      a <- lrd f_wav_lmn (j - J_min) ;;
      w <- islice3 wav_lm j (between L0j Lj) (between2 (L - Nj) (L - 1 + Nj)) ;;
      x <- einsum_lm_ln_nlm_fp
             (slice2 flm (between L0j Lj) (between (L - Lj) (L - 1 + Lj))) w ;;
      a <- upd3 cadd a every2 (from L0j) full x ;;
      f_wav_lmn <- lwr f_wav_lmn (j - J_min) a ;;
      let shift := if j <? J then 0 else -1 in
      pj <- lrd p2 (j - J_min + shift) ;;
      y <- twi64 O a pj Lj Nj s reality nside ;;
      f_wav <- lwr f_wav (j - J_min) (Some y) ;;
      Ok (f_wav_lmn, f_wav)) ;;
    phi <- mul1_fp (slice1 (snd fl) (upto Ls)) (sca_weights_fp Ls) ;;
    temp <- einsum_lm_l_lm_fp (slice2 flm (upto Ls) (between (L - Ls) (L - 1 + Ls))) phi ;;
    f_scal <- (if Ls =? 1 then Ok (one_pixel64 temp)
               else k1 <- need p1 ;; ti64 O temp k1 Ls s reality spin nside) ;;
    Ok (f_wav, f_scal)
  end.

(** wavelet_precompute_torch.py:214-297 *)
Definition torch_flm_to_analysis_fp (fpow : f64 -> Z -> f64) (O : back64) (J : Z) (flm : arr2 c64)
    (L N J_min : Z) (J_max : option Z) (lam : f64) (s : sampling) (nside : option Z)
    (reality : bool) (filters : option (arr3 c64)) (precomps : option precomputes) : res (list (option nd64)) :=
  match precomps with
  | None => Err ValueError
  | Some (_, _, p2) =>
    let J := pick_J64 J J_max in
    f_wav_lmn <- construct_flmn_torch_fp fpow L N J_min J lam true ;;
    let f_wav := map (fun _ => @None nd64) (zrange J_min (J + 1)) in
    fl <- need filters ;;
    wav_lm <- einsum_jln_l_fp (map3 cconj64 fl) (wig_weights_fp L) ;;
    ' (_, f_wav) <- for_ (zrange J_min (J + 1)) (f_wav_lmn, f_wav) (fun j st =>
      let '(f_wav_lmn, f_wav) := st in
      ' (Lj, Nj, L0j) <- LN_j_fp fpow L j N lam true ;;
      a <- lrd f_wav_lmn (j - J_min) ;;
      w <- islice3 wav_lm j (between L0j Lj) (between2 (L - Nj) (L - 1 + Nj)) ;;
      x <- einsum_lm_ln_nlm_fp
             (slice2 flm (between L0j Lj) (between (L - Lj) (L - 1 + Lj))) w ;;
      a <- upd3 cadd a every2 (from L0j) full x ;;
      f_wav_lmn <- lwr f_wav_lmn (j - J_min) a ;;
      let shift := if j <? J then 0 else -1 in
      pj <- lrd p2 (j - J_min + shift) ;;
      y <- twi64 O a pj Lj Nj s reality nside ;;
      f_wav <- lwr f_wav (j - J_min) (Some y) ;;
      Ok (f_wav_lmn, f_wav)) ;;
    Ok f_wav
  end.

(** ** transforms/wavelet_c.py *)

(** wavelet_c.py:210-244 *)
Definition c_apply_wavelets_fp (fpow : f64 -> Z -> f64) (flm : arr2 c64) (L N J_min J : Z) (lam : f64)
    (filters : option (arr3 c64)) : res (list (arr3 c64)) :=
  f_wav_lmn <- construct_flmn_jax_fp fpow L N J_min J lam true ;;
  fl <- need filters ;;
  wav_lm <- einsum_jln_l_fp (map3 cconj64 fl) (wig_weights_fp L) ;;
  for_ (zrange J_min (J + 1)) f_wav_lmn (fun j f_wav_lmn =>
    ' (Lj, Nj, L0j) <- LN_j_fp fpow L j N lam true ;;
    a <- lrd f_wav_lmn (j - J_min) ;;
    w <- islice3 wav_lm j (between L0j Lj) (between2 (L - Nj) (L - 1 + Nj)) ;;
    x <- einsum_lm_ln_nlm_fp
           (slice2 flm (between L0j Lj) (between (L - Lj) (L - 1 + Lj))) w ;;
    a <- upd3 cadd a every2 (from L0j) full x ;;
    lwr f_wav_lmn (j - J_min) a).

(** wavelet_c.py:248-258 *)
Definition c_apply_scaling_fp (fpow : f64 -> Z -> f64) (flm : arr2 c64) (L J_min : Z) (lam : f64)
    (filters : option (arr1 f64)) : res (arr2 c64) :=
  Ls <- scal_bandlimit_fp fpow L J_min lam true ;;
  fl <- need filters ;;
  phi <- mul1_fp (slice1 fl (upto Ls)) (sca_weights_fp Ls) ;;
  einsum_lm_l_lm_fp (slice2 flm (upto Ls) (between (L - Ls) (L - 1 + Ls))) phi.

(** wavelet_c.py:262-290 *)
Definition c_sum_fp (fpow : f64 -> Z -> f64) (fsum : Z -> Z -> list f64 -> f64) (f_wav_lmn : list (arr3 c64)) (f_scal_lm : arr2 c64)
    (L N J_min J : Z) (lam : f64) (filters : option (arr3 c64 * arr1 f64)) : res (arr2 c64) :=
  Ls <- scal_bandlimit_fp fpow L J_min lam true ;;
  flm <- zeros2 L (2 * L - 1) ;;
  flm <- for_ (zrange J_min (J + 1)) flm (fun j flm =>
    ' (Lj, Nj, L0j) <- LN_j_fp fpow L j N lam true ;;
    fl <- need filters ;;
    w <- islice3 (fst fl) j (between L0j Lj) (between2 (L - Nj) (L - 1 + Nj)) ;;
    a <- lrd f_wav_lmn (j - J_min) ;;
    x <- einsum_ln_nlm_lm_fp fsum w (slice3 a every2 (from L0j) full) ;;
    upd2 cadd flm (between L0j Lj) (between (L - Lj) (L - 1 + Lj)) x) ;;
  fl <- need filters ;;
  phi <- mul1_fp (slice1 (snd fl) (upto Ls)) (sca_weights_fp Ls) ;;
  x <- einsum_lm_l_lm_fp f_scal_lm phi ;;
  upd2 cadd flm (upto Ls) (between (L - Ls) (L - 1 + Ls)) x.

(** wavelet_c.py:10-85 *)
Definition ssht_synthesis_fp (fpow : f64 -> Z -> f64) (fsum : Z -> Z -> list f64 -> f64) (O : back64) (J : Z)
    (f_wav : list nd64) (f_scal : nd64) (L N J_min : Z) (lam : f64) (spin : Z) (s : sampling)
    (reality : bool) (filters : option (arr3 c64 * arr1 f64)) : res nd64 :=
  idx <- ssht_sampling s ;;
  Ls <- scal_bandlimit_fp fpow L J_min lam true ;;
  f_scal_lm <- cf64 O (if reality then nd_real64 f_scal else f_scal) Ls spin reality idx ;;
  f_wav_lmn <- for_ (zrange J_min (J + 1)) [] (fun j f_wav_lmn =>
    ' (Lj, Nj, L0j) <- LN_j_fp fpow L j N lam true ;;
    fj <- lrd f_wav (j - J_min) ;;
    a <- cwf64 O fj Lj Nj L0j s reality ;;
    Ok (f_wav_lmn ++ [a])) ;;
  flm <- c_sum_fp fpow fsum f_wav_lmn f_scal_lm L N J_min J lam filters ;;
  ci64 O flm L spin reality idx.

(** wavelet_c.py:88-153 *)
Definition ssht_analysis_fp (fpow : f64 -> Z -> f64) (O : back64) (J : Z) (f : nd64)
    (L N J_min : Z) (lam : f64) (spin : Z) (s : sampling)
    (reality : bool) (filters : option (arr3 c64 * arr1 f64)) : res (list nd64 * nd64) :=
  idx <- ssht_sampling s ;;
  Ls <- scal_bandlimit_fp fpow L J_min lam true ;;
  flm <- cf64 O f L spin reality idx ;;
  fl <- need filters ;;
  f_wav_lmn <- c_apply_wavelets_fp fpow flm L N J_min J lam (Some (fst fl)) ;;
  flm_scal <- c_apply_scaling_fp fpow flm L J_min lam (Some (snd fl)) ;;
  f_wav <- for_ (zrange J_min (J + 1)) [] (fun j f_wav =>
    ' (Lj, Nj, L0j) <- LN_j_fp fpow L j N lam true ;;
    a <- lrd f_wav_lmn (j - J_min) ;;
    y <- cwi64 O a Lj Nj L0j s reality ;;
    Ok (f_wav ++ [y])) ;;
  f_scal <- (if Ls =? 1 then Ok (one_pixel64 flm_scal) else ci64 O flm_scal Ls spin reality idx) ;;
  Ok (f_wav, f_scal).

(** wavelet_c.py:156-206 *)
Definition ssht_flm_to_analysis_fp (fpow : f64 -> Z -> f64) (O : back64) (J : Z) (flm : arr2 c64)
    (L N J_min : Z) (J_max : option Z) (lam : f64) (s : sampling) (reality : bool)
    (filters : option (arr3 c64)) : res (list nd64) :=
  let J := pick_J64 J J_max in
  f_wav_lmn <- c_apply_wavelets_fp fpow flm L N J_min J lam filters ;;
  for_ (zrange J_min (J + 1)) [] (fun j f_wav =>
    ' (Lj, Nj, L0j) <- LN_j_fp fpow L j N lam true ;;
    a <- lrd f_wav_lmn (j - J_min) ;;
    y <- cwi64 O a Lj Nj L0j s reality ;;
    Ok (f_wav ++ [y])).
