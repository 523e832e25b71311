(** * The directional filters in binary64

    [flg] is scipy's loggamma, [fexp] numpy's exp, [fpow] the power. *)

From Coq Require Import ZArith Reals List Bool.
From Flocq Require Import Core IEEE754.BinarySingleNaN.
From Verif Require Import Py ModelFloat.
Import ListNotations.
Open Scope Z_scope.

(** np.floor *)
Definition ffloor (x : f64) : f64 := @Bnearbyint 53 1024 lt53 mode_DN x.
(** the literal 0.5, and np.pi *)
Definition fhalf : f64 := binary_normalize 53 1024 gt53 lt53 mode_NE 1 (-1) false.
Definition fpi : f64 := binary_normalize 53 1024 gt53 lt53 mode_NE 7074237752028440 (-51) false.

(** complex128: pairs, with numpy's product *)
Definition c64 : Set := (f64 * f64)%type.
Definition creal (x : f64) : c64 := (x, fint 0).
Definition cmul (x y : c64) : c64 :=
  (fsub (fmul (fst x) (fst y)) (fmul (snd x) (snd y)), fadd (fmul (fst x) (snd y)) (fmul (snd x) (fst y))).
Definition czero (x : c64) : bool := feq (fst x) (fint 0) && feq (snd x) (fint 0).
#[global] Instance Zeroed_c64 : Zeroed c64 := creal (fint 0).

(** samples.py:631-644 in binary64 *)
Definition binomial_fp (flg fexp : f64 -> f64) (n : Z) (k : f64) : f64 :=
  ffloor (fadd fhalf (fexp (fsub (fsub (flg (fint (n + 1))) (flg (fadd k (fint 1))))
                                 (flg (fadd (fsub (fint n) k) (fint 1)))))).

(** a Python int as an operand of a float (OverflowError if it is too large) *)
Definition pyfloat (n : Z) : res f64 := if is_finite (fint n) then Ok (fint n) else Err OverflowError.

(** filters.py:605-629 in binary64 *)
Definition tiling_direction_fp (flg fexp : f64 -> f64) (L N : Z) : res (arr2 c64) :=
  let nu (r : f64) : c64 := if negb (N mod 2 =? 0) then creal (fmul (fint 1) r)
                            else cmul (fint 0, fint 1) (creal r) in
  s_elm <- zeros2 L (2 * L - 1) ;;
  for_ (zrange 1 L) s_elm (fun el s_elm =>
    let gamma := if negb ((N + el) mod 2 =? 0) then Z.min (N - 1) el
                 else Z.min (N - 1) (el - 1) in
    for_ (zrange (- el) (el + 1)) s_elm (fun m s_elm =>
      if (Z.abs m <? N) && negb ((N + m) mod 2 =? 0) then
        k <- pydiv (fint (gamma - m)) (fint 2) ;;
        d <- pyfloat (2 ^ gamma) ;;
        let r := fsqrt (fdiv (binomial_fp flg fexp gamma k) d) in
        wr2 s_elm el (L - 1 + m) (nu r)
      else wr2 s_elm el (L - 1 + m) (creal (fint 0)))).

(** filters.py:632-652 in binary64 *)
Definition spin_normalization_fp (el spin : Z) : res f64 :=
  factor <- for_ (zrange (- Z.abs spin + 1) (Z.abs spin + 1)) (fint 1)
              (fun s factor => Ok (fmul factor (fint (el + s)))) ;;
  if 0 <? spin then Ok (fsqrt factor)
  else q <- pydiv (fint 1) factor ;; Ok (fsqrt q).

(** (-1)**spin0 *)
Definition fsgn (n : Z) : f64 := if Z.even n then fint 1 else fint (-1).

(** the weights of filters.py:134, 144 and 238, 241 *)
Definition scal_weight_fp (el : Z) : f64 := fsqrt (fdiv (fint (2 * el + 1)) (fmul (fint 4) fpi)).
Definition wav_weight_fp (el : Z) : f64 := fsqrt (fdiv (fint (2 * el + 1)) (fmul (fmul (fint 8) fpi) fpi)).
Definition wav_weight_vec_fp (el : Z) : f64 := fdiv (fsqrt (fdiv (fint (2 * el + 1)) (fint 8))) fpi.

(** filters.py:120-155 in binary64; J is the value of samples.j_max *)
Definition filters_directional_fp (fexp : f64 -> f64) (fpow : f64 -> Z -> f64) (flg : f64 -> f64)
    (J L N J_min : Z) (lam : f64) (spin spin0 : Z) : res (arr3 c64 * arr1 f64) :=
  let el_min := Z.max (Z.abs spin) (Z.abs spin0) in
  phi <- zeros1 L ;;
  psi <- zeros3 (J + 1) L (2 * L - 1) ;;
  ' (kappa, kappa0) <- filters_axisym_fp fexp fpow J L J_min lam ;;
  s_elm <- tiling_direction_fp flg fexp L N ;;
  phi <- for_ (zrange el_min L) phi (fun el phi =>
    x <- rd1 kappa0 el ;;
    if negb (feq x (fint 0)) then
      phi <- wr1 phi el (fmul (scal_weight_fp el) x) ;;
      if negb (spin0 =? 0) then
        w <- spin_normalization_fp el spin0 ;;
        y <- rd1 phi el ;;
        wr1 phi el (fmul y (fmul w (fsgn spin0)))
      else Ok phi
    else Ok phi) ;;
  psi <- for_ (zrange J_min (J + 1)) psi (fun j psi =>
    for_ (zrange el_min L) psi (fun el psi =>
      kx <- rd2 kappa j el ;;
      if negb (feq kx (fint 0)) then
        for_ (zrange (- el) (el + 1)) psi (fun m psi =>
          s <- rd2 s_elm el (L - 1 + m) ;;
          if czero s then Ok psi
          else
            psi <- wr3 psi j el (L - 1 + m) (cmul (creal (fmul (wav_weight_fp el) kx)) s) ;;
            if negb (spin0 =? 0) then
              w <- spin_normalization_fp el spin0 ;;
              y <- rd3 psi j el (L - 1 + m) ;;
              wr3 psi j el (L - 1 + m) (cmul y (creal (fmul w (fsgn spin0))))
            else Ok psi)
      else Ok psi)) ;;
  Ok (psi, phi).

(** filters.py:223-252 in binary64.  For spin0 <> 0 the reshape of 2|spin0|
    numbers to 2|spin0|+1 raises first (filters.py:663). *)
Definition filters_directional_vectorised_fp (fexp : f64 -> f64) (fpow : f64 -> Z -> f64) (flg : f64 -> f64)
    (J L N J_min : Z) (lam : f64) (spin spin0 : Z) : res (arr3 c64 * arr1 f64) :=
  let el_min := Z.max (Z.abs spin) (Z.abs spin0) in
  if negb (spin0 =? 0) then Err ValueError else
  ' (kappa, kappa0) <- filters_axisym_vectorised_fp fexp fpow J L J_min lam ;;
  s_elm <- tiling_direction_fp flg fexp L N ;;
  d0 <- bdim (len1 kappa0) L ;;
  let kappa0 := mk1 d0 (fun l => fmul (get1 kappa0 (bi (len1 kappa0) l)) (scal_weight_fp (bi L l))) in
  d1 <- bdim (cols kappa) L ;;
  let kappa := mk2 (rows kappa) d1 (fun j l => fmul (get2 kappa j (bi (cols kappa) l)) (wav_weight_vec_fp (bi L l))) in
  d2 <- bdim (cols kappa) (rows s_elm) ;;
  let kappa := mk3 (rows kappa) d2 (cols s_elm) (fun j l i =>
    cmul (creal (get2 kappa j (bi (cols kappa) l))) (get2 s_elm (bi (rows s_elm) l) i)) in
  let kappa0 := fill1 kappa0 (upto el_min) (fint 0) in
  let kappa := fill3 kappa full (upto el_min) full (creal (fint 0)) in
  Ok (kappa, kappa0).
