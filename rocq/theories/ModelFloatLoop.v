(** * The looped base transforms in binary64

    Parameters as in ModelFloatTrans.v *)

From Coq Require Import ZArith Reals List Bool.
From Flocq Require Import Core IEEE754.BinarySingleNaN.
From Verif Require Import Py ModelSamples ModelFloat ModelFloatDir ModelFloatTrans.
Import ListNotations.
Open Scope Z_scope.

(** (-1)**m, converted to complex128 in the product; for m < 0 Python computes the same number as a float *)
Definition csgn64 (m : Z) : c64 := creal (fint (if Z.even m then 1 else -1)).

(** base.py:7-87 *)
Definition synthesis_looped_fp (fexp : f64 -> f64) (fpow : f64 -> Z -> f64) (flg : f64 -> f64) (O : s2fft64) (J : Z)
    (f_wav : list nd64) (f_scal : nd64)
    (L N J_min : Z) (lam : f64) (spin spin0 : Z) (s : sampling) (nside : option Z)
    (reality multiresolution : bool) : res nd64 :=
  _ <- wavelet_shape_check_fp fpow J f_wav f_scal L N J_min lam s nside multiresolution ;;
  Ls <- scal_bandlimit_fp fpow L J_min lam multiresolution ;;
  flm <- zeros2 L (2 * L - 1) ;;
  f_scal_lm <- fwd64 O f_scal Ls spin s nside reality ;;
  ' (wav_lm, scal_l) <- filters_directional_fp fexp fpow flg J L N J_min lam spin spin0 ;;
  flm <- for_ (zrange J_min (J + 1)) flm (fun j flm =>
    ' (Lj, Nj, L0j) <- LN_j_fp fpow L j N lam multiresolution ;;
    fj <- lrd f_wav (j - J_min) ;;
    temp <- wfwd64 O fj Lj Nj L0j s reality nside ;;
    for_ (zrange_st (- Nj + 1) Nj 2) flm (fun n flm =>
      for_ (zrange (Z.max (Z.max (Z.abs spin) (Z.abs n)) L0j) Lj) flm (fun el flm =>
        psi <- rd3 wav_lm j el (L - 1 + n) ;;
        for_ (zrange (- el) (el + 1)) flm (fun m flm =>
          x <- rd2 flm el (L - 1 + m) ;;
          t <- rd3 temp (Nj - 1 + n) el (Lj - 1 + m) ;;
          wr2 flm el (L - 1 + m) (cadd x (cmul t psi)))))) ;;
  flm <- for_ (zrange (Z.abs spin) Ls) flm (fun el flm =>
    sl <- rd1 scal_l el ;;
    let phi := creal (fmul (fsqrt (fdiv (fmul (fint 4) fpi) (fint (2 * el + 1)))) sl) in
    x <- rd2 flm el (0 + L - 1) ;;
    y <- rd2 f_scal_lm el (Ls - 1 + 0) ;;
    flm <- wr2 flm el (0 + L - 1) (cadd x (cmul y phi)) ;;
    for_ (zrange 1 (el + 1)) flm (fun m flm =>
      x <- rd2 flm el (L - 1 + m) ;;
      y <- rd2 f_scal_lm el (Ls - 1 + m) ;;
      flm <- wr2 flm el (L - 1 + m) (cadd x (cmul y phi)) ;;
      if reality then
        z <- rd2 flm el (m + L - 1) ;;
        x <- rd2 flm el (- m + L - 1) ;;
        wr2 flm el (- m + L - 1) (cadd x (cmul (csgn64 m) (cconj64 z)))
      else
        x <- rd2 flm el (- m + L - 1) ;;
        y <- rd2 f_scal_lm el (Ls - 1 - m) ;;
        wr2 flm el (- m + L - 1) (cadd x (cmul y phi)))) ;;
  inv64 O flm L spin s nside reality.

(** base.py:168-259 *)
Definition analysis_looped_fp (fexp : f64 -> f64) (fpow : f64 -> Z -> f64) (flg : f64 -> f64) (O : s2fft64) (J : Z) (f : nd64)
    (L N J_min : Z) (lam : f64) (spin spin0 : Z) (s : sampling) (nside : option Z)
    (reality multiresolution : bool) : res (list nd64 * nd64) :=
  Ls <- scal_bandlimit_fp fpow L J_min lam multiresolution ;;
  f_scal_lm <- construct_flm_fp fpow L J_min lam multiresolution ;;
  f_wav_lmn <- construct_flmn_fp fpow J L N J_min lam multiresolution ;;
  ' (wav_lm, scal_l) <- filters_directional_fp fexp fpow flg J L N J_min lam spin spin0 ;;
  flm <- fwd64 O f L spin s nside reality ;;
  f_wav_lmn <- for_ (zrange J_min (J + 1)) f_wav_lmn (fun j f_wav_lmn =>
    ' (Lj, Nj, L0j) <- LN_j_fp fpow L j N lam multiresolution ;;
    (* f_wav_lmn[j - J_min] is updated in place: read it once, write it back *)
    a <- lrd f_wav_lmn (j - J_min) ;;
    a <- for_ (zrange_st (- Nj + 1) Nj 2) a (fun n a =>
      for_ (zrange (Z.max (Z.max (Z.abs spin) (Z.abs n)) L0j) Lj) a (fun el a =>
        w <- rd3 wav_lm j el (L - 1 + n) ;;
        let psi := cmul (cconj64 w) (creal (fdiv (fmul (fint 8) (fmul fpi fpi)) (fint (2 * el + 1)))) in
        x <- rd2 flm el (L - 1 + 0) ;;
        a <- wr3 a (Nj - 1 + n) el (Lj - 1) (cmul x psi) ;;
        for_ (zrange 1 (el + 1)) a (fun m a =>
          x <- rd2 flm el (L - 1 + m) ;;
          a <- wr3 a (Nj - 1 + n) el (Lj - 1 + m) (cmul x psi) ;;
          if reality then
            y <- rd3 a (Nj - 1 + n) el (Lj - 1 + m) ;;
            wr3 a (Nj - 1 - n) el (Lj - 1 - m) (cmul (csgn64 (m + n)) (cconj64 y))
          else
            x <- rd2 flm el (L - 1 - m) ;;
            wr3 a (Nj - 1 + n) el (Lj - 1 - m) (cmul x psi)))) ;;
    lwr f_wav_lmn (j - J_min) a) ;;
  f_scal_lm <- for_ (zrange (Z.abs spin) Ls) f_scal_lm (fun el f_scal_lm =>
    sl <- rd1 scal_l el ;;
    let phi := creal (fmul (fsqrt (fdiv (fmul (fint 4) fpi) (fint (2 * el + 1)))) sl) in
    x <- rd2 flm el (L - 1 + 0) ;;
    f_scal_lm <- wr2 f_scal_lm el (Ls - 1 + 0) (cmul x phi) ;;
    for_ (zrange 1 (el + 1)) f_scal_lm (fun m f_scal_lm =>
      x <- rd2 flm el (L - 1 + m) ;;
      f_scal_lm <- wr2 f_scal_lm el (Ls - 1 + m) (cmul x phi) ;;
      if reality then
        y <- rd2 f_scal_lm el (Ls - 1 + m) ;;
        wr2 f_scal_lm el (Ls - 1 - m) (cmul (csgn64 m) (cconj64 y))
      else
        x <- rd2 flm el (L - 1 - m) ;;
        wr2 f_scal_lm el (Ls - 1 - m) (cmul x phi))) ;;
  f_wav <- construct_f_fp fpow J L N J_min lam s nside multiresolution ;;
  f_wav <- for_ (zrange J_min (J + 1)) f_wav (fun j f_wav =>
    ' (Lj, Nj, L0j) <- LN_j_fp fpow L j N lam multiresolution ;;
    a <- lrd f_wav_lmn (j - J_min) ;;
    y <- winv64 O a Lj Nj L0j s reality nside ;;
    lwr f_wav (j - J_min) y) ;;
  f_scal <- inv64 O f_scal_lm Ls spin s nside reality ;;
  Ok (f_wav, f_scal).
