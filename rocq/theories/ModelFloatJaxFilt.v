(** * The JAX filters in binary64

    With jax_enable_x64; every operation of XLA is taken to be rounded on its own.  [fexp] and [fpow] are numpy's
    exp and the power, as k_lam_jax calls the numpy quadrature; [jlg] and [jexp] are JAX's gammaln and exp. *)

From Coq Require Import ZArith Reals List Bool.
From Flocq Require Import Core IEEE754.BinarySingleNaN.
From Verif Require Import Py ModelFloat ModelFloatDir.
Import ListNotations.
Open Scope Z_scope.

(** filters.py:520-578 in binary64, from line 563 on; J is the value of samples.j_max *)
Definition k_lam_jax_fp (fexp : f64 -> f64) (fpow : f64 -> Z -> f64) (J L : Z) (lam : f64) (quad_iters : Z) : res (arr2 f64) :=
  il <- pydiv (fint 1) lam ;;
  normalisation <- part_scaling_fn_fp fexp il (fint 1) quad_iters lam ;;
  k <- zeros2 (J + 2) L ;;
  for_ (zrange 0 (J + 2)) k (fun j k =>
    for_ (zrange 0 L) k (fun l k =>
      if flt (fint l) (fpow lam (j - 1)) then wr2 k j l (fint 1)
      else if flt (fpow lam j) (fint l) then wr2 k j l (fint 0)
      else
        a <- pydiv (fint l) (fpow lam j) ;;
        q <- part_scaling_fn_fp fexp a (fint 1) quad_iters lam ;;
        wr2 k j l (fdiv q normalisation))).

(** filters.py:255-290 in binary64; J is the value of samples.j_max *)
Definition filters_axisym_jax_fp (fexp : f64 -> f64) (fpow : f64 -> Z -> f64) (J L J_min : Z) (lam : f64)
    : res (arr2 f64 * arr1 f64) :=
  if (J <=? J_min) || (J_min <? 0) then Err ValueError else
  k <- k_lam_jax_fp fexp fpow J L lam 300 ;;
  let r := roll_up k in
  let diff := droplast (mk2 (rows k) (cols k) (fun i j => fsub (get2 r i j) (get2 k i j))) in
  z <- zeros2 (J + 1) L ;;
  (* jnp.where: all three arguments must have the same shape *)
  _ <- Py.guard ((rows diff =? rows z) && (cols diff =? cols z)) ValueError ;;
  let diff := mk2 (rows diff) (cols diff)
                (fun i j => if flt (get2 diff i j) (fint 0) then get2 z i j else get2 diff i j) in
  kr <- row2 k J_min ;;
  Ok (map2 fsqrt diff, map1 fsqrt kr).

(** samples.py:647-660 in binary64 *)
Definition binomial_jax_fp (jlg jexp : f64 -> f64) (n : Z) (k : f64) : f64 :=
  ffloor (fadd fhalf (jexp (fsub (fsub (jlg (fint (n + 1))) (jlg (fadd k (fint 1))))
                                 (jlg (fadd (fsub (fint n) k) (fint 1)))))).

(** filters.py:668-715 in binary64.  2**gamma is a Python int which JAX converts to int64 (OverflowError if it does not fit); jnp.where discards the entries outside the mask. *)
Definition tiling_direction_jax_fp (jlg jexp : f64 -> f64) (L N : Z) : res (arr2 c64) :=
  (* (N % 2 - 1)**2 * 1j + (N % 2) *)
  let nu : c64 := (fadd (fmul (fint ((N mod 2 - 1) ^ 2)) (fint 0)) (fint (N mod 2)), fmul (fint ((N mod 2 - 1) ^ 2)) (fint 1)) in
  s_elm <- zeros2 L (2 * L - 1) ;;
  for_ (zrange 1 L) s_elm (fun el s_elm =>
    let gamma := Z.min (N - 1) (el - 1 + (N + el) mod 2) in
    let ms := fun i => - el + i in
    let val := fun i =>
      cmul nu (creal (fsqrt (fdiv (binomial_jax_fp jlg jexp gamma (fdiv (fint (gamma - ms i)) (fint 2))) (fint (2 ^ gamma))))) in
    let val := mk2 1 (2 * el + 1) (fun _ i =>
      if (ms i <? N) && (- N <? ms i) && ((N + ms i) mod 2 =? 1) then val i else creal (fint 0)) in
    _ <- Py.guard (gamma <? 63) OverflowError ;;
    (* s_elm.at[el, L-1-el : L+el].set(val) *)
    upd2 assign s_elm (between el (el + 1)) (between (L - 1 - el) (L + el)) val).

(** filters.py:293-348 in binary64.  For spin0 <> 0 the reshape of 2|spin0|
    numbers to 2|spin0|+1 raises first (filters.py:727). *)
Definition filters_directional_jax_fp (fexp : f64 -> f64) (fpow : f64 -> Z -> f64) (jlg jexp : f64 -> f64)
    (J L N J_min : Z) (lam : f64) (spin spin0 : Z) : res (arr3 c64 * arr1 f64) :=
  let el_min := Z.max (Z.abs spin) (Z.abs spin0) in
  if negb (spin0 =? 0) then Err TypeError else
  ' (kappa, kappa0) <- filters_axisym_jax_fp fexp fpow J L J_min lam ;;
  s_elm <- tiling_direction_jax_fp jlg jexp L N ;;
  d0 <- bdim (len1 kappa0) L ;;
  let kappa0 := mk1 d0 (fun l => fmul (get1 kappa0 (bi (len1 kappa0) l)) (scal_weight_fp (bi L l))) in
  d1 <- bdim (cols kappa) L ;;
  let kappa := mk2 (rows kappa) d1 (fun j l => fmul (get2 kappa j (bi (cols kappa) l)) (wav_weight_vec_fp (bi L l))) in
  d2 <- bdim (cols kappa) (rows s_elm) ;;
  let kappa := mk3 (rows kappa) d2 (cols s_elm) (fun j l i =>
    cmul (creal (get2 kappa j (bi (cols kappa) l))) (get2 s_elm (bi (rows s_elm) l) i)) in
  let kappa0 := fill1 kappa0 (upto el_min) (fint 0) in
  let kappa := fill3 kappa full (upto el_min) full (creal (fint 0)) in
  Ok (kappa, kappa0).
