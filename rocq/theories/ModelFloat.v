(** * Models of s2wav functions in binary64 arithmetic

    The other models are over exact reals.  The functions below are modelled
    again in IEEE 754 binary64, with Flocq's definitions of rounding. *)

From Coq Require Import ZArith Reals List Bool.
From Flocq Require Import Core IEEE754.BinarySingleNaN.
From Verif Require Import Py.
Import ListNotations.
Open Scope Z_scope.

(** round to nearest, ties to even, in binary64 *)
Definition rnd64 (x : R) : R := round radix2 (FLT_exp (-1074) 53) ZnearestE x.

(** samples.py:564-576 in binary64: [flog] is the log of the platform (numpy
    converts the int L exactly when |L| <= 2^53), the quotient is rounded. *)
Definition j_max_fp (flog : R -> R) (L : Z) (lam : R) : Z :=
  rceil (rnd64 (flog (IZR L) / flog lam)).

(** [flog] computes the logarithm of x with a relative error of at most 2^-52 *)
Definition accurate_at (flog : R -> R) (x : R) : Prop :=
  (Rabs (flog x - ln x) <= bpow radix2 (-52) * Rabs (ln x))%R.

(** ** binary64 values (Flocq's [binary_float], one NaN), round to nearest even *)

Definition f64 : Set := binary_float 53 1024.
Definition gt53 : Prec_gt_0 53 := eq_refl.
Definition lt53 : Prec_lt_emax 53 1024 := eq_refl.
Definition fadd (x y : f64) : f64 := @Bplus 53 1024 gt53 lt53 mode_NE x y.
Definition fsub (x y : f64) : f64 := @Bminus 53 1024 gt53 lt53 mode_NE x y.
Definition fmul (x y : f64) : f64 := @Bmult 53 1024 gt53 lt53 mode_NE x y.
Definition fdiv (x y : f64) : f64 := @Bdiv 53 1024 gt53 lt53 mode_NE x y.
Definition feq (x y : f64) : bool := Beqb x y.
Definition flt (x y : f64) : bool := Bltb x y.
(** float(z) for an int z *)
Definition fint (z : Z) : f64 :=
  binary_normalize 53 1024 gt53 lt53 mode_NE z 0 false.
Definition finf : f64 := B754_infinity false.

(** Python float division: raises on zero *)
Definition pydiv (x y : f64) : res f64 :=
  if feq y (fint 0) then Err ZeroDivisionError else Ok (fdiv x y).

(** filters.py:351-376 in binary64.  [fexp] is numpy's exp; s_arg**2.0 is
    taken as the rounded product; the division by t is numpy's, which does not
    raise. *)
Definition tiling_integrand_fp (fexp : f64 -> f64) (t lam : f64) : res f64 :=
  il <- pydiv (fint 1) lam ;;
  c <- pydiv (fmul (fint 2) lam) (fsub lam (fint 1)) ;;
  let s_arg := fsub (fmul (fsub t il) c) (fint 1) in
  e <- pydiv (fint (-2)) (fsub (fint 1) (fmul s_arg s_arg)) ;;
  Ok (fdiv (fexp e) t).

(** x not in [1/lam, 1.0] *)
Definition not_end_fp (x il : f64) : bool := negb (feq x il || feq x (fint 1)).

(** filters.py:379-418 in binary64 *)
Definition part_scaling_fn_fp (fexp : f64 -> f64) (a b : f64) (n : Z) (lam : f64) : res f64 :=
  h <- pydiv (fsub b a) (fint n) ;;
  if feq a b then Ok (fint 0)
  else
    for_ (zrange 0 n) (fint 0) (fun i sum =>
      il <- pydiv (fint 1) lam ;;
      if not_end_fp (fadd a (fmul (fint i) h)) il && not_end_fp (fadd a (fmul (fint (i + 1)) h)) il then
        f1 <- tiling_integrand_fp fexp (fadd a (fmul (fint i) h)) lam ;;
        f2 <- tiling_integrand_fp fexp (fadd a (fmul (fint (i + 1)) h)) lam ;;
        Ok (fadd sum (fdiv (fmul (fadd f1 f2) h) (fint 2)))
      else Ok sum).

(** filters.py:468-475 in binary64: one entry of k_lam.  [fpow lam j] is lam**j.
    The quotient is numpy's, as both operands are numpy floats once a panel
    has been evaluated. *)
Definition k_entry_fp (fexp : f64 -> f64) (fpow : f64 -> Z -> f64) (j l : Z) (lam : f64) (quad_iters : Z) (normalisation : f64) : res f64 :=
  if flt (fint l) (fpow lam (j - 1)) then Ok (fint 1)
  else if flt (fpow lam j) (fint l) then Ok (fint 0)
  else
    a <- pydiv (fint l) (fpow lam j) ;;
    q <- part_scaling_fn_fp fexp a (fint 1) quad_iters lam ;;
    Ok (fdiv q normalisation).

#[global] Instance Zeroed_f64 : Zeroed f64 := fint 0.

(** filters.py:421-477 in binary64, from line 463 on: J is the value of
    samples.j_max *)
Definition k_lam_fp (fexp : f64 -> f64) (fpow : f64 -> Z -> f64) (J L : Z) (lam : f64) (quad_iters : Z) : res (arr2 f64) :=
  il <- pydiv (fint 1) lam ;;
  normalisation <- part_scaling_fn_fp fexp il (fint 1) quad_iters lam ;;
  k <- zeros2 (J + 2) L ;;
  for_ (zrange 0 (J + 2)) k (fun j k =>
    for_ (zrange 0 L) k (fun l k =>
      v <- k_entry_fp fexp fpow j l lam quad_iters normalisation ;;
      wr2 k j l v)).

(** ** Sizes *)

(** math.ceil of a float *)
Definition fceil (x : f64) : res Z :=
  match x with
  | B754_nan => Err ValueError
  | B754_infinity _ => Err OverflowError
  | _ => Ok (rceil (B2R x))
  end.

(** samples.py:74-90 in binary64 *)
Definition L0_j_fp (fpow : f64 -> Z -> f64) (j : Z) (lam : f64) : res Z :=
  if negb (j =? 0) then fceil (fpow lam (j - 1)) else Ok 0.

(** samples.py:406-431 in binary64 *)
Definition wav_j_bandlimit_fp (fpow : f64 -> Z -> f64) (L j : Z) (lam : f64) (multiresolution : bool) : res Z :=
  let j := if j =? 0 then j + 1 else j in
  if multiresolution
  then c <- fceil (fpow lam (j + 1)) ;; Ok (Z.min c L)
  else Ok L.

(** samples.py:343-366 in binary64 *)
Definition scal_bandlimit_fp (fpow : f64 -> Z -> f64) (L J_min : Z) (lam : f64) (multiresolution : bool) : res Z :=
  if multiresolution
  then c <- fceil (fpow lam J_min) ;; Ok (Z.min c L)
  else Ok L.

(** samples.py:93-130 in binary64 *)
Definition LN_j_fp (fpow : f64 -> Z -> f64) (L j N : Z) (lam : f64) (multiresolution : bool) : res (Z * Z * Z) :=
  let j := if j =? 0 then j + 1 else j in
  Lj <- wav_j_bandlimit_fp fpow L j lam multiresolution ;;
  L0j <- (if multiresolution then L0_j_fp fpow j lam else Ok 0) ;;
  let Nj := N in
  let Nj := if multiresolution
            then let Nj := Z.min N Lj in Nj + (Nj + N) mod 2
            else Nj in
  Ok (Lj, Nj, L0j).

(** ** Axisymmetric filters *)

Definition fsqrt (x : f64) : f64 := @Bsqrt 53 1024 gt53 lt53 mode_NE x.

(** filters.py:57-81 in binary64; J is the value of samples.j_max.  numpy's
    square root of a negative number is NaN. *)
Definition filters_axisym_fp (fexp : f64 -> f64) (fpow : f64 -> Z -> f64) (J L J_min : Z) (lam : f64)
    : res (arr2 f64 * arr1 f64) :=
  if (J <=? J_min) || (J_min <? 0) then Err ValueError else
  k <- k_lam_fp fexp fpow J L lam 300 ;;
  psi <- zeros2 (J + 1) L ;;
  phi <- zeros1 L ;;
  phi <- for_ (zrange 0 L) phi (fun l phi =>
    x <- rd2 k J_min l ;;
    wr1 phi l (fsqrt x)) ;;
  ' (psi, _, _) <-
    for_ (zrange J_min (J + 1)) (psi, fint 0, @None f64) (fun j st =>
      for_ (zrange 0 L) st (fun l st =>
        let '(psi, previoustemp, temp) := st in
        x1 <- rd2 k (j + 1) l ;;
        x0 <- rd2 k j l ;;
        let diff := fsub x1 x0 in
        ' (psi, temp) <-
          (if flt diff (fint 0)
           then psi <- wr2 psi j l previoustemp ;; Ok (psi, temp)
           else psi <- wr2 psi j l (fsqrt diff) ;; Ok (psi, Some (fsqrt diff))) ;;
        match temp with
        | Some t => Ok (psi, t, temp)
        | None => Err UnboundLocalError
        end)) ;;
  Ok (psi, phi).

(** filters.py:179-192 in binary64 *)
Definition filters_axisym_vectorised_fp (fexp : f64 -> f64) (fpow : f64 -> Z -> f64) (J L J_min : Z) (lam : f64)
    : res (arr2 f64 * arr1 f64) :=
  if (J <=? J_min) || (J_min <? 0) then Err ValueError else
  k <- k_lam_fp fexp fpow J L lam 300 ;;
  let r := roll_up k in
  let diff := droplast (mk2 (rows k) (cols k) (fun i j => fsub (get2 r i j) (get2 k i j))) in
  let diff := map2 (fun x => if flt x (fint 0) then fint 0 else x) diff in
  kr <- row2 k J_min ;;
  Ok (map2 fsqrt diff, map1 fsqrt kr).
