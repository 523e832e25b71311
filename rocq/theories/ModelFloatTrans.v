(** * The vectorised base transforms in binary64

    [fexp], [fpow], [flg] are the library functions the filters use, [fsum l m]
    is how np.einsum adds up a list for the entry (l, m) of its result, J the value of samples.j_max.  s2fft's
    transforms are arbitrary functions on complex128 arrays. *)

From Coq Require Import ZArith Reals List Bool.
From Flocq Require Import Core IEEE754.BinarySingleNaN.
From Verif Require Import Py ModelSamples ModelFloat ModelFloatDir.
Import ListNotations.
Open Scope Z_scope.

(** pixel arrays of complex128 *)
Record nd64 := Nd64 { nshape64 : list Z; ndat64 : list Z -> c64 }.
Definition zeros_nd64 (sh : list Z) : res nd64 :=
  if forallb (fun d => 0 <=? d) sh then Ok (Nd64 sh (fun _ => creal (fint 0))) else Err ValueError.

(** s2fft.base_transforms.spherical and .wigner, arguments as in ModelTransforms.v *)
Record s2fft64 := S2fft64 {
  fwd64 : nd64 -> Z -> Z -> sampling -> option Z -> bool -> res (arr2 c64);
  inv64 : arr2 c64 -> Z -> Z -> sampling -> option Z -> bool -> res nd64;
  wfwd64 : nd64 -> Z -> Z -> Z -> sampling -> bool -> option Z -> res (arr3 c64);
  winv64 : arr3 c64 -> Z -> Z -> Z -> sampling -> bool -> option Z -> res nd64
}.

(** ** numpy on complex128 *)

Definition fneg (x : f64) : f64 := Bopp x.
Definition cconj64 (x : c64) : c64 := (fst x, fneg (snd x)).
Definition cadd (x y : c64) : c64 := (fadd (fst x) (fst y), fadd (snd x) (snd y)).
(** the real and imaginary parts are added up separately, in the same order *)
Definition csum64 (fsum : list f64 -> f64) (l : list c64) : c64 := (fsum (map fst l), fsum (map snd l)).

(** einsum("jln,l->jln"): the real weights are converted to complex *)
Definition einsum_jln_l_fp (a : arr3 c64) (w : arr1 f64) : res (arr3 c64) :=
  d <- bdim (dim1 a) (len1 w) ;;
  Ok (mk3 (dim0 a) d (dim2 a) (fun i j k =>
        cmul (get3 a i (bi (dim1 a) j) k) (creal (get1 w (bi (len1 w) j))))).
(** einsum("lm,ln->nlm") *)
Definition einsum_lm_ln_nlm_fp (a b : arr2 c64) : res (arr3 c64) :=
  d <- bdim (rows a) (rows b) ;;
  Ok (mk3 (cols b) d (cols a) (fun n l m =>
        cmul (get2 a (bi (rows a) l) m) (get2 b (bi (rows b) l) n))).
(** einsum("ln,nlm->lm") *)
Definition einsum_ln_nlm_lm_fp (fsum : Z -> Z -> list f64 -> f64) (a : arr2 c64) (b : arr3 c64) : res (arr2 c64) :=
  d <- bdim (rows a) (dim1 b) ;;
  nn <- bdim (cols a) (dim0 b) ;;
  Ok (mk2 d (dim2 b) (fun l m =>
        csum64 (fsum l m) (map (fun n => cmul (get2 a (bi (rows a) l) (bi (cols a) n))
                                        (get3 b (bi (dim0 b) n) (bi (dim1 b) l) m)) (zrange 0 nn)))).
(** einsum("lm,l->lm") *)
Definition einsum_lm_l_lm_fp (a : arr2 c64) (w : arr1 f64) : res (arr2 c64) :=
  d <- bdim (rows a) (len1 w) ;;
  Ok (mk2 d (cols a) (fun l m =>
        cmul (get2 a (bi (rows a) l) m) (creal (get1 w (bi (len1 w) l))))).
(** elementwise product of two real vectors *)
Definition mul1_fp (a b : arr1 f64) : res (arr1 f64) :=
  d <- bdim (len1 a) (len1 b) ;;
  Ok (mk1 d (fun i => fmul (get1 a (bi (len1 a) i)) (get1 b (bi (len1 b) i)))).

(** 8*np.pi**2/(2*np.arange(L)+1), with np.pi**2 taken as the rounded product *)
Definition wig_weights_fp (L : Z) : arr1 f64 :=
  mk1 (Z.max 0 L) (fun l => fdiv (fmul (fint 8) (fmul fpi fpi)) (fint (2 * l + 1))).
(** np.sqrt(4*np.pi/(2*np.arange(Ls)+1)) *)
Definition sca_weights_fp (Ls : Z) : arr1 f64 :=
  mk1 (Z.max 0 Ls) (fun l => fsqrt (fdiv (fmul (fint 4) fpi) (fint (2 * l + 1)))).

(** ** Sizes and constructors of samples.py with the computed powers *)

(** samples.py:133-176 *)
Definition f_wav_j_fp (fpow : f64 -> Z -> f64) (L j N : Z) (lam : f64) (s : sampling) (nside : option Z)
    (multiresolution : bool) : res (list Z) :=
  ' (Lj, Nj, _) <- LN_j_fp fpow L j N lam multiresolution ;;
  so3_f_shape Lj Nj s nside.
(** samples.py:13-48 *)
Definition f_scal_fp (fpow : f64 -> Z -> f64) (L J_min : Z) (lam : f64) (s : sampling) (nside : option Z)
    (multiresolution : bool) : res (list Z) :=
  L_s <- scal_bandlimit_fp fpow L J_min lam multiresolution ;;
  s2_f_shape L_s s nside.
(** samples.py:179-232 *)
Definition construct_f_fp (fpow : f64 -> Z -> f64) (J L N J_min : Z) (lam : f64) (s : sampling) (nside : option Z)
    (multiresolution : bool) : res (list nd64) :=
  for_ (zrange J_min (J + 1)) [] (fun j f =>
    sh <- f_wav_j_fp fpow L j N lam s nside multiresolution ;;
    z <- zeros_nd64 sh ;;
    Ok (f ++ [z])).
(** samples.py:294-316 *)
Definition construct_flm_fp (fpow : f64 -> Z -> f64) (L J_min : Z) (lam : f64) (multiresolution : bool) : res (arr2 c64) :=
  L_s <- scal_bandlimit_fp fpow L J_min lam multiresolution ;;
  zeros2 L_s (2 * L_s - 1).
(** samples.py:434-478 *)
Definition construct_flmn_fp (fpow : f64 -> Z -> f64) (J L N J_min : Z) (lam : f64) (multiresolution : bool)
  : res (list (arr3 c64)) :=
  for_ (zrange J_min (J + 1)) [] (fun j f =>
    ' (Lj, Nj, _) <- LN_j_fp fpow L j N lam multiresolution ;;
    z <- zeros3 (2 * Nj - 1) Lj (2 * Lj - 1) ;;
    Ok (f ++ [z])).
(** samples.py:579-628 *)
Definition wavelet_shape_check_fp (fpow : f64 -> Z -> f64) (J : Z) (f_w : list nd64) (f_s : nd64) (L N J_min : Z) (lam : f64)
    (s : sampling) (nside : option Z) (multiresolution : bool) : res unit :=
  _ <- guard (Z.of_nat (length f_w) =? J - J_min + 1) AssertionError ;;
  sh <- f_scal_fp fpow L J_min lam s nside multiresolution ;;
  _ <- guard (zlist_eqb (nshape64 f_s) sh) AssertionError ;;
  for_ (zrange J_min (J + 1)) tt (fun j _ =>
    a <- lrd f_w (j - J_min) ;;
    sh <- f_wav_j_fp fpow L j N lam s nside multiresolution ;;
    guard (zlist_eqb (nshape64 a) sh) AssertionError).

(** ** transforms/base.py *)

(** base.py:262-339 with scattering=False *)
Definition analysis_fp (fexp : f64 -> f64) (fpow : f64 -> Z -> f64) (flg : f64 -> f64) (O : s2fft64) (J : Z) (f : nd64)
    (L N J_min : Z) (lam : f64) (spin spin0 : Z) (s : sampling) (nside : option Z)
    (reality multiresolution : bool) : res (list nd64 * nd64) :=
  Ls <- scal_bandlimit_fp fpow L J_min lam multiresolution ;;
  f_scal_lm <- construct_flm_fp fpow L J_min lam multiresolution ;;
  f_wav_lmn <- construct_flmn_fp fpow J L N J_min lam multiresolution ;;
  f_wav <- construct_f_fp fpow J L N J_min lam s (Some (if multiresolution then 1 else 0)) false ;;
  ' (wav_lm, scal_l) <- filters_directional_vectorised_fp fexp fpow flg J L N J_min lam spin spin0 ;;
  wav_lm <- einsum_jln_l_fp (map3 cconj64 wav_lm) (wig_weights_fp L) ;;
  flm <- fwd64 O f L spin s nside reality ;;
  ' (_, f_wav) <- for_ (zrange J_min (J + 1)) (f_wav_lmn, f_wav) (fun j st =>
    let '(f_wav_lmn, f_wav) := st in
    ' (Lj, Nj, L0j) <- LN_j_fp fpow L j N lam multiresolution ;;
    a <- lrd f_wav_lmn (j - J_min) ;;
    w <- islice3 wav_lm j (between L0j Lj) (between2 (L - Nj) (L - 1 + Nj)) ;;
    x <- einsum_lm_ln_nlm_fp
           (slice2 flm (between L0j Lj) (between (L - Lj) (L - 1 + Lj))) w ;;
    a <- upd3 assign a every2 (from L0j) full x ;;
    f_wav_lmn <- lwr f_wav_lmn (j - J_min) a ;;
    y <- winv64 O a Lj Nj L0j s reality nside ;;
    f_wav <- lwr f_wav (j - J_min) y ;;
    Ok (f_wav_lmn, f_wav)) ;;
  phi <- mul1_fp (slice1 scal_l (upto Ls)) (sca_weights_fp Ls) ;;
  f_scal_lm <- einsum_lm_l_lm_fp
                 (slice2 flm (upto Ls) (between (L - Ls) (L - 1 + Ls))) phi ;;
  f_scal <- inv64 O f_scal_lm Ls spin s nside reality ;;
  Ok (f_wav, f_scal).

(** base.py:90-165 *)
Definition synthesis_fp (fexp : f64 -> f64) (fpow : f64 -> Z -> f64) (flg : f64 -> f64) (fsum : Z -> Z -> list f64 -> f64)
    (O : s2fft64) (J : Z) (f_wav : list nd64) (f_scal : nd64)
    (L N J_min : Z) (lam : f64) (spin spin0 : Z) (s : sampling) (nside : option Z)
    (reality multiresolution : bool) : res nd64 :=
  _ <- wavelet_shape_check_fp fpow J f_wav f_scal L N J_min lam s nside multiresolution ;;
  Ls <- scal_bandlimit_fp fpow L J_min lam multiresolution ;;
  flm <- zeros2 L (2 * L - 1) ;;
  f_scal_lm <- fwd64 O f_scal Ls spin s nside reality ;;
  ' (wav_lm, scal_l) <- filters_directional_vectorised_fp fexp fpow flg J L N J_min lam spin spin0 ;;
  flm <- for_ (zrange J_min (J + 1)) flm (fun j flm =>
    ' (Lj, Nj, L0j) <- LN_j_fp fpow L j N lam multiresolution ;;
    fj <- lrd f_wav (j - J_min) ;;
    temp <- wfwd64 O fj Lj Nj L0j s reality nside ;;
    w <- islice3 wav_lm j (between L0j Lj) (between2 (L - Nj) (L - 1 + Nj)) ;;
    x <- einsum_ln_nlm_lm_fp fsum w (slice3 temp every2 (from L0j) full) ;;
    upd2 cadd flm (between L0j Lj) (between (L - Lj) (L - 1 + Lj)) x) ;;
  phi <- mul1_fp (slice1 scal_l (upto Ls)) (sca_weights_fp Ls) ;;
  x <- einsum_lm_l_lm_fp f_scal_lm phi ;;
  flm <- upd2 cadd flm (upto Ls) (between (L - Ls) (L - 1 + Ls)) x ;;
  inv64 O flm L spin s nside reality.
