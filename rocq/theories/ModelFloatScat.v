(** * base.analysis in binary64 with the scattering flag

    [fhyp] is the library function behind np.abs of a complex128 number; the other parameters are those of
    ModelFloatTrans.v. *)

From Coq Require Import ZArith Reals List Bool.
From Flocq Require Import Core IEEE754.BinarySingleNaN.
From Verif Require Import Py ModelSamples ModelFloat ModelFloatDir ModelFloatTrans.
Import ListNotations.
Open Scope Z_scope.

(** np.abs of an array; the result is real *)
Definition nd_abs64 (fhyp : f64 -> f64 -> f64) (f : nd64) : nd64 :=
  Nd64 (nshape64 f) (fun ix => creal (fhyp (fst (ndat64 f ix)) (snd (ndat64 f ix)))).

(** base.py:262-339 *)
Definition analysis_flag_fp (fexp : f64 -> f64) (fpow : f64 -> Z -> f64) (flg : f64 -> f64) (fhyp : f64 -> f64 -> f64) (O : s2fft64) (J : Z) (f : nd64)
    (L N J_min : Z) (lam : f64) (spin spin0 : Z) (s : sampling) (nside : option Z)
    (reality multiresolution scattering : bool) : res (list nd64 * nd64) :=
  Ls <- scal_bandlimit_fp fpow L J_min lam multiresolution ;;
  f_scal_lm <- construct_flm_fp fpow L J_min lam multiresolution ;;
  f_wav_lmn <- construct_flmn_fp fpow J L N J_min lam multiresolution ;;
  f_wav <- construct_f_fp fpow J L N J_min lam s (Some (if multiresolution then 1 else 0)) false ;;
  ' (wav_lm, scal_l) <- filters_directional_vectorised_fp fexp fpow flg J L N J_min lam spin spin0 ;;
  wav_lm <- einsum_jln_l_fp (map3 cconj64 wav_lm) (wig_weights_fp L) ;;
  flm <- fwd64 O f L spin s nside reality ;;
  ' (_, f_wav) <- for_ (zrange J_min (J + 1)) (f_wav_lmn, f_wav) (fun j st =>
    let '(f_wav_lmn, f_wav) := st in
    ' (Lj, Nj, L0j) <- LN_j_fp fpow L j N lam multiresolution ;;
    a <- lrd f_wav_lmn (j - J_min) ;;
    w <- islice3 wav_lm j (between L0j Lj) (between2 (L - Nj) (L - 1 + Nj)) ;;
    x <- einsum_lm_ln_nlm_fp
           (slice2 flm (between L0j Lj) (between (L - Lj) (L - 1 + Lj))) w ;;
    a <- upd3 assign a every2 (from L0j) full x ;;
    f_wav_lmn <- lwr f_wav_lmn (j - J_min) a ;;
    y <- winv64 O a Lj Nj L0j s reality nside ;;
    f_wav <- lwr f_wav (j - J_min) y ;;
    f_wav <- (if scattering then
                z <- lrd f_wav (j - J_min) ;; lwr f_wav (j - J_min) (nd_abs64 fhyp z)
              else Ok f_wav) ;;
    Ok (f_wav_lmn, f_wav)) ;;
  phi <- mul1_fp (slice1 scal_l (upto Ls)) (sca_weights_fp Ls) ;;
  f_scal_lm <- einsum_lm_l_lm_fp
                 (slice2 flm (upto Ls) (between (L - Ls) (L - 1 + Ls))) phi ;;
  f_scal <- inv64 O f_scal_lm Ls spin s nside reality ;;
  Ok (f_wav, f_scal).
