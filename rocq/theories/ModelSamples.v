(** * Model of /repo/s2wav/samples.py

    Python ints are [Z]; the float parameter lam is an (exact) real.  Line
    numbers refer to /repo/s2wav/samples.py unless stated otherwise. *)

From Coq Require Import ZArith Reals List Bool Factorial.
From Coquelicot Require Import Complex.
From Verif Require Import Py.
Import ListNotations.
Open Scope Z_scope.

(** ** Sampling schemes and s2fft's shape functions (external)

    The sampling argument is a string; [Unknown] stands for any string outside
    the documented set.  The shape functions are those of s2fft
    (s2fft/sampling/s2_samples.py and so3_samples.py, not in /repo), imported
    at samples.py:8; they are reproduced from s2fft's documented behaviour. *)
Inductive sampling := MW | MWSS | DH | GL | HEALPIX | Unknown.

Definition ntheta (L : Z) (s : sampling) : res Z :=
  match s with
  | MW | GL => Ok L
  | MWSS => Ok (L + 1)
  | DH => Ok (2 * L)
  | _ => Err ValueError
  end.
Definition nphi (L : Z) (s : sampling) : res Z :=
  match s with
  | MW | DH | GL => Ok (2 * L - 1)
  | MWSS => Ok (2 * L)
  | _ => Err ValueError
  end.
(** s2fft.sampling.s2_samples.f_shape *)
Definition s2_f_shape (L : Z) (s : sampling) (nside : option Z) : res (list Z) :=
  match s with
  | HEALPIX => match nside with Some k => Ok [12 * (k * k)] | None => Err ValueError end
  | _ => nt <- ntheta L s ;; np <- nphi L s ;; Ok [nt; np]
  end.
(** s2fft.sampling.so3_samples.f_shape *)
Definition so3_f_shape (L N : Z) (s : sampling) (nside : option Z) : res (list Z) :=
  match s with
  | HEALPIX => match nside with Some k => Ok [2 * N - 1; 12 * (k * k)] | None => Err TypeError end
  | _ => nt <- ntheta L s ;; np <- nphi L s ;; Ok [2 * N - 1; nt; np]
  end.

(** ** Scalars *)

(** lam ** j for an int exponent; Python raises on 0 ** negative. *)
Definition pypow (lam : R) (j : Z) : res R :=
  if reqb lam 0 && (j <? 0) then Err ZeroDivisionError else Ok (powerRZ lam j).

(** numpy float64 results, with the non-finite values numpy produces where
    the real function is undefined (numpy warns instead of raising). *)
Inductive xr := Fin (x : R) | PInf | NInf | NaN.

Definition np_log (x : R) : xr :=
  if rltb 0 x then Fin (ln x) else if reqb x 0 then NInf else NaN.

Definition np_div (a b : xr) : xr :=
  match a, b with
  | NaN, _ | _, NaN => NaN
  | Fin x, Fin y =>
      if reqb y 0 then (if rltb 0 x then PInf else if rltb x 0 then NInf else NaN)
      else Fin (x / y)
  | Fin _, (PInf | NInf) => Fin 0
  | (PInf | NInf), (PInf | NInf) => NaN
  | PInf, Fin y => if rltb y 0 then NInf else PInf
  | NInf, Fin y => if rltb y 0 then PInf else NInf
  end.

(** int(np.ceil(x)) *)
Definition int_ceil (x : xr) : res Z :=
  match x with
  | Fin r => Ok (rceil r)
  | PInf | NInf => Err OverflowError
  | NaN => Err ValueError
  end.

(** samples.py:564-576 *)
Definition j_max (L : Z) (lam : R) : res Z :=
  int_ceil (np_div (np_log (IZR L)) (np_log lam)).

(** samples.py:51-71 *)
Definition n_wav_scales (L N J_min : Z) (lam : R) : res Z :=
  J <- j_max L lam ;; Ok (J - J_min + 1).

(** samples.py:74-90 *)
Definition L0_j (j : Z) (lam : R) : res Z :=
  if negb (j =? 0) then p <- pypow lam (j - 1) ;; Ok (rceil p) else Ok 0.

(** samples.py:406-431 *)
Definition wav_j_bandlimit (L j : Z) (lam : R) (multiresolution : bool) : res Z :=
  let j := if j =? 0 then j + 1 else j in
  if multiresolution
  then p <- pypow lam (j + 1) ;; Ok (Z.min (rceil p) L)
  else Ok L.

(** samples.py:343-366 *)
Definition scal_bandlimit (L J_min : Z) (lam : R) (multiresolution : bool) : res Z :=
  if multiresolution
  then p <- pypow lam J_min ;; Ok (Z.min (rceil p) L)
  else Ok L.

(** samples.py:93-130 *)
Definition LN_j (L j N : Z) (lam : R) (multiresolution : bool) : res (Z * Z * Z) :=
  let j := if j =? 0 then j + 1 else j in
  Lj <- wav_j_bandlimit L j lam multiresolution ;;
  L0j <- (if multiresolution then L0_j j lam else Ok 0) ;;
  let Nj := N in
  let Nj := if multiresolution
            then let Nj := Z.min N Lj in Nj + (Nj + N) mod 2
            else Nj in
  Ok (Lj, Nj, L0j).

(** samples.py:13-48 *)
Definition f_scal (L J_min : Z) (lam : R) (s : sampling) (nside : option Z)
    (multiresolution : bool) : res (list Z) :=
  L_s <- (if multiresolution
          then p <- pypow lam J_min ;; Ok (Z.min (rceil p) L)
          else Ok L) ;;
  s2_f_shape L_s s nside.

(** samples.py:133-176 *)
Definition f_wav_j (L j N : Z) (lam : R) (s : sampling) (nside : option Z)
    (multiresolution : bool) : res (list Z) :=
  ' (Lj, Nj, _) <- LN_j L j N lam multiresolution ;;
  so3_f_shape Lj Nj s nside.

(** samples.py:369-403 *)
Definition flmn_wav_j (L j N : Z) (lam : R) (multiresolution : bool) : res (Z * Z * Z) :=
  ' (Lj, Nj, _) <- LN_j L j N lam multiresolution ;;
  Ok (2 * Nj - 1, Lj, 2 * Lj - 1).

(** ** Constructors *)

(** samples.py:179-232, the list branch (scattering=False) *)
Definition construct_f (L N J_min : Z) (lam : R) (s : sampling) (nside : option Z)
    (multiresolution : bool) : res (list nd) :=
  J <- j_max L lam ;;
  for_ (zrange J_min (J + 1)) [] (fun j f =>
    sh <- f_wav_j L j N lam s nside multiresolution ;;
    z <- zeros_nd sh ;;
    Ok (f ++ [z])).

(** samples.py:217-222, the scattering=True branch *)
Definition construct_f_scattering (L N : Z) (lam : R) (s : sampling) (nside : option Z)
    (multiresolution : bool) : res nd :=
  J <- j_max L lam ;;
  sh <- f_wav_j L (J - 1) N lam s nside multiresolution ;;
  zeros_nd sh.

(** J = J_max if J_max is not None else j_max(L, lam)  (samples.py:258, 287, 511, 552) *)
Definition pick_J (L : Z) (lam : R) (J_max : option Z) : res Z :=
  match J_max with Some J => Ok J | None => j_max L lam end.

(** samples.py:235-262.  Each entry is the empty Python list. *)
Definition construct_f_jax (L J_min : Z) (J_max : option Z) (lam : R) : res (list (list nd)) :=
  J <- pick_J L lam J_max ;;
  for_ (zrange J_min (J + 1)) [] (fun _ f => Ok (f ++ [[]])).

(** samples.py:265-291 *)
Definition construct_f_torch (L J_min : Z) (J_max : option Z) (lam : R) : res (list (list nd)) :=
  J <- pick_J L lam J_max ;;
  for_ (zrange J_min (J + 1)) [] (fun _ f => Ok (f ++ [[]])).

(** samples.py:294-315 *)
Definition construct_flm (L J_min : Z) (lam : R) (multiresolution : bool) : res (arr2 C) :=
  L_s <- scal_bandlimit L J_min lam multiresolution ;;
  zeros2 L_s (2 * L_s - 1).

(** samples.py:318-340 *)
Definition construct_flm_jax (L J_min : Z) (lam : R) (multiresolution : bool) : res (arr2 C) :=
  L_s <- scal_bandlimit L J_min lam multiresolution ;;
  zeros2 L_s (2 * L_s - 1).

(** samples.py:434-478, the list branch *)
Definition construct_flmn (L N J_min : Z) (lam : R) (multiresolution : bool)
  : res (list (arr3 C)) :=
  J <- j_max L lam ;;
  for_ (zrange J_min (J + 1)) [] (fun j f =>
    ' (a, b, c) <- flmn_wav_j L j N lam multiresolution ;;
    z <- zeros3 a b c ;;
    Ok (f ++ [z])).

(** samples.py:464-468, the scattering=True branch *)
Definition construct_flmn_scattering (L N : Z) (lam : R) (multiresolution : bool)
  : res (arr3 C) :=
  J <- j_max L lam ;;
  ' (a, b, c) <- flmn_wav_j L (J - 1) N lam multiresolution ;;
  zeros3 a b c.

(** samples.py:481-520 *)
Definition construct_flmn_jax (L N J_min : Z) (J_max : option Z) (lam : R)
    (multiresolution : bool) : res (list (arr3 C)) :=
  J <- pick_J L lam J_max ;;
  for_ (zrange J_min (J + 1)) [] (fun j f =>
    ' (a, b, c) <- flmn_wav_j L j N lam multiresolution ;;
    z <- zeros3 a b c ;;
    Ok (f ++ [z])).

(** samples.py:523-561 *)
Definition construct_flmn_torch (L N J_min : Z) (J_max : option Z) (lam : R)
    (multiresolution : bool) : res (list (arr3 C)) :=
  J <- pick_J L lam J_max ;;
  for_ (zrange J_min (J + 1)) [] (fun j f =>
    ' (a, b, c) <- flmn_wav_j L j N lam multiresolution ;;
    z <- zeros3 a b c ;;
    Ok (f ++ [z])).

(** ** Shape check, samples.py:579-628 *)

Fixpoint zlist_eqb (a b : list Z) : bool :=
  match a, b with
  | [], [] => true
  | x :: a', y :: b' => (x =? y) && zlist_eqb a' b'
  | _, _ => false
  end.

Definition wavelet_shape_check (f_w : list nd) (f_s : nd) (L N J_min : Z) (lam : R)
    (s : sampling) (nside : option Z) (multiresolution : bool) : res unit :=
  n <- n_wav_scales L N J_min lam ;;
  _ <- guard (Z.of_nat (length f_w) =? n) AssertionError ;;
  sh <- f_scal L J_min lam s nside multiresolution ;;
  _ <- guard (zlist_eqb (nshape f_s) sh) AssertionError ;;
  J <- j_max L lam ;;
  for_ (zrange J_min (J + 1)) tt (fun j _ =>
    a <- lrd f_w (j - J_min) ;;
    sh <- f_wav_j L j N lam s nside multiresolution ;;
    guard (zlist_eqb (nshape a) sh) AssertionError).

(** ** Binomial coefficient, samples.py:631-660

    [loggamma x] stands for scipy.special.loggamma / jax gammaln.  It is
    defined to equal log((x-1)!) at positive integers x.  Elsewhere the value
    is a placeholder: the callers in filters.py either never evaluate it there
    (numpy) or discard the result (JAX, masked by jnp.where); the theorems
    about them are additionally proved for an arbitrary function that agrees
    with log((x-1)!) at positive integers. *)
Definition loggamma (x : R) : R := ln (INR (fact (Z.to_nat (rfloor x - 1)))).

Definition binomial_with (lg : R -> R) (n k : R) : R :=
  IZR (rfloor (0.5 + exp (lg (n + 1) - lg (k + 1) - lg (n - k + 1))))%R.

(** samples.py:631-644 *)
Definition binomial_coefficient (n k : R) : R := binomial_with loggamma n k.
(** samples.py:647-660 *)
Definition binomial_coefficient_jax (n k : R) : R := binomial_with loggamma n k.
