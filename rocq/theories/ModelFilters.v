(** * Model of /repo/s2wav/filters.py  (exact real arithmetic)

    Line numbers refer to /repo/s2wav/filters.py.  The [using_torch] argument
    only wraps the results with torch.from_numpy and is not modelled. *)

From Coq Require Import ZArith Reals List Bool.
From Coquelicot Require Import Complex.
From Verif Require Import Py ModelSamples.
Import ListNotations.
Open Scope Z_scope.

(** ** Generating function k_lambda *)

(** filters.py:351-376.  1.0/lam, .../(lam-1.0) and -2.0/(1.0-s**2) are
    Python float divisions and raise on zero; the final division by t is a
    numpy one. *)
Definition tiling_integrand (t lam : R) : res R :=
  if reqb lam 0 then Err ZeroDivisionError
  else if reqb (lam - 1) 0 then Err ZeroDivisionError
  else
    let s_arg := ((t - (1 / lam)) * (2 * lam / (lam - 1)) - 1)%R in
    let d := (1 - s_arg ^ 2)%R in
    if reqb d 0 then Err ZeroDivisionError
    else if reqb t 0 then Err NonFinite
    else Ok (exp (- 2 / d) / t)%R.

(** x not in [1/lam, 1.0] *)
Definition not_end (x lam : R) : bool := negb (reqb x (1 / lam) || reqb x 1).

(** filters.py:379-418 *)
Definition part_scaling_fn (a b : R) (n : Z) (lam : R) : res R :=
  if n =? 0 then Err ZeroDivisionError
  else
    let h := ((b - a) / IZR n)%R in
    if reqb a b then Ok 0%R
    else
      for_ (zrange 0 n) 0%R (fun i sum =>
        if reqb lam 0 then Err ZeroDivisionError
        else if not_end (a + IZR i * h) lam && not_end (a + IZR (i + 1) * h) lam then
          f1 <- tiling_integrand (a + IZR i * h) lam ;;
          f2 <- tiling_integrand (a + IZR (i + 1) * h) lam ;;
          Ok (sum + ((f1 + f2) * h) / 2)%R
        else Ok sum).

(** numpy scalar division: a zero denominator gives inf or nan.  (When no panel
    was added up, for at most two panels or lam = 1, both operands are Python
    numbers and Python raises ZeroDivisionError instead.) *)
Definition np_quot (x y : R) : res R := if reqb y 0 then Err NonFinite else Ok (x / y)%R.

(** the three-way test inside the double loop of k_lam, filters.py:468-475 *)
Definition k_entry (j l : Z) (lam : R) (quad_iters : Z) (normalisation : R) : res R :=
  p1 <- pypow lam (j - 1) ;;
  if rltb (IZR l) p1 then Ok 1%R
  else
    p <- pypow lam j ;;
    if rltb p (IZR l) then Ok 0%R
    else
      if reqb p 0 then Err ZeroDivisionError
      else
        q <- part_scaling_fn (IZR l / p) 1 quad_iters lam ;;
        np_quot q normalisation.

(** filters.py:421-477 *)
Definition k_lam (L : Z) (lam : R) (quad_iters : Z) : res (arr2 R) :=
  J <- j_max L lam ;;
  if reqb lam 0 then Err ZeroDivisionError else
  normalisation <- part_scaling_fn (1 / lam) 1 quad_iters lam ;;
  k <- zeros2 (J + 2) L ;;
  for_ (zrange 0 (J + 2)) k (fun j k =>
    for_ (zrange 0 L) k (fun l k =>
      v <- k_entry j l lam quad_iters normalisation ;;
      wr2 k j l v)).

(** default of the quad_iters parameter, filters.py:421, 521 *)
Definition default_quad_iters : Z := 300.

(** filters.py:480-517.  The whole vector is computed and the panels touching
    an endpoint are then masked; masked entries are computed with the total
    real division here (inf/nan in JAX) and discarded by the mask. *)
Definition part_scaling_fn_jax (a b : R) (n : Z) (lam : R) : R :=
  let h := ((b - a) / IZR n)%R in
  let x := fun i => (a + IZR i * ((b - a) / IZR n))%R in      (* jnp.linspace(a,b,num=n+1) *)
  let s_arg := fun i => ((x i - (1 / lam)) * (2 * lam / (lam - 1)) - 1)%R in
  let g := fun i => (exp (- 2 / (1 - Rsqr (s_arg i))) / x i)%R in
  let value := fun i =>
    if reqb (x i) (1 / lam) || reqb (x i) 1 || reqb (x (i + 1)%Z) (1 / lam) || reqb (x (i + 1)%Z) 1
    then 0%R else (g i + g (i + 1)%Z)%R in
  zrsum n (fun i => (value i * h / 2)%R).

(** filters.py:520-578 (calls part_scaling_fn, not the JAX variant) *)
Definition k_lam_jax (L : Z) (lam : R) (quad_iters : Z) : res (arr2 R) :=
  J <- j_max L lam ;;
  if reqb lam 0 then Err ZeroDivisionError else
  normalisation <- part_scaling_fn (1 / lam) 1 quad_iters lam ;;
  k <- zeros2 (J + 2) L ;;
  for_ (zrange 0 (J + 2)) k (fun j k =>
    for_ (zrange 0 L) k (fun l k =>
      v <- k_entry j l lam quad_iters normalisation ;;
      wr2 k j l v)).

(** ** Axisymmetric filters *)

(** if J_min >= J or J_min < 0: raise ValueError  (filters.py:57-62, 182-187, 280-285) *)
Definition check_J_min (J_min J : Z) : res unit :=
  guard (negb ((J <=? J_min) || (J_min <? 0))) ValueError.

(** filters.py:10-81.  State of the double loop: (psi, previoustemp, temp),
    temp being a Python local that does not exist until first assigned. *)
Definition filters_axisym (L J_min : Z) (lam : R) : res (arr2 R * arr1 R) :=
  J <- j_max L lam ;;
  _ <- check_J_min J_min J ;;
  k <- k_lam L lam default_quad_iters ;;
  psi <- zeros2 (J + 1) L ;;
  phi <- zeros1 L ;;
  phi <- for_ (zrange 0 L) phi (fun l phi =>
    x <- rd2 k J_min l ;;
    y <- np_sqrt x ;;
    wr1 phi l y) ;;
  ' (psi, _, _) <-
    for_ (zrange J_min (J + 1)) (psi, 0%R, @None R) (fun j st =>
      for_ (zrange 0 L) st (fun l st =>
        let '(psi, previoustemp, temp) := st in
        x1 <- rd2 k (j + 1) l ;;
        x0 <- rd2 k j l ;;
        let diff := (x1 - x0)%R in
        ' (psi, temp) <-
          (if rltb diff 0
           then psi <- wr2 psi j l previoustemp ;; Ok (psi, temp)
           else t <- np_sqrt diff ;; psi <- wr2 psi j l t ;; Ok (psi, Some t)) ;;
        match temp with
        | Some t => Ok (psi, t, temp)
        | None => Err UnboundLocalError
        end)) ;;
  Ok (psi, phi).

(** filters.py:158-192 *)
Definition filters_axisym_vectorised (L J_min : Z) (lam : R) : res (arr2 R * arr1 R) :=
  J <- j_max L lam ;;
  _ <- check_J_min J_min J ;;
  k <- k_lam L lam default_quad_iters ;;
  let diff := droplast (sub2 (roll_up k) k) in
  let diff := map2 (fun x => if rltb x 0 then 0%R else x) diff in
  psi <- np_sqrt2 diff ;;
  kr <- row2 k J_min ;;
  phi <- np_sqrt1 kr ;;
  Ok (psi, phi).

(** filters.py:255-290 *)
Definition filters_axisym_jax (L J_min : Z) (lam : R) : res (arr2 R * arr1 R) :=
  J <- j_max L lam ;;
  _ <- check_J_min J_min J ;;
  k <- k_lam_jax L lam default_quad_iters ;;
  let diff := droplast (sub2 (roll_up k) k) in
  z <- zeros2 (J + 1) L ;;
  (* jnp.where: all three arguments must have the same shape *)
  _ <- guard ((rows diff =? rows z) && (cols diff =? cols z)) ValueError ;;
  let diff := mk2 (rows diff) (cols diff)
                (fun i j => if rltb (get2 diff i j) 0 then get2 z i j else get2 diff i j) in
  psi <- np_sqrt2 diff ;;
  kr <- row2 k J_min ;;
  phi <- np_sqrt1 kr ;;
  Ok (psi, phi).

(** ** Directional component *)

(** filters.py:581-629, for a given log-gamma function *)
Definition tiling_direction_with (lg : R -> R) (L N : Z) : res (arr2 C) :=
  let nu : C := if negb (N mod 2 =? 0) then RtoC 1 else Ci in
  s_elm <- zeros2 L (2 * L - 1) ;;
  for_ (zrange 1 L) s_elm (fun el s_elm =>
    let gamma := if negb ((N + el) mod 2 =? 0) then Z.min (N - 1) el
                 else Z.min (N - 1) (el - 1) in
    for_ (zrange (- el) (el + 1)) s_elm (fun m s_elm =>
      if (Z.abs m <? N) && negb ((N + m) mod 2 =? 0) then
        r <- np_sqrt (binomial_with lg (IZR gamma) (IZR (gamma - m) / 2)
                      / powerRZ 2 gamma)%R ;;
        wr2 s_elm el (L - 1 + m) (Cmult nu (RtoC r))
      else wr2 s_elm el (L - 1 + m) (RtoC 0))).

Definition tiling_direction (L N : Z) : res (arr2 C) := tiling_direction_with loggamma L N.

(** filters.py:668-715, for a given log-gamma function; entries outside the
    mask are computed with Coq's total sqrt and discarded by jnp.where.  JAX
    converts the Python integer 2 ** gamma to int64 before dividing by it and
    raises OverflowError if it does not fit. *)
Definition tiling_direction_jax_with (lg : R -> R) (L N : Z) : res (arr2 C) :=
  let nu : C := Cplus (Cmult (RtoC (IZR ((N mod 2 - 1) ^ 2))) Ci) (RtoC (IZR (N mod 2))) in
  s_elm <- zeros2 L (2 * L - 1) ;;
  for_ (zrange 1 L) s_elm (fun el s_elm =>
    let gamma := Z.min (N - 1) (el - 1 + (N + el) mod 2) in
    let ms := fun i => - el + i in                          (* jnp.arange(-el, el+1) *)
    let val := fun i =>
      Cmult nu (RtoC (sqrt (binomial_with lg (IZR gamma) (IZR (gamma - ms i) / 2)
                            / powerRZ 2 gamma))) in
    let val := mk2 1 (2 * el + 1) (fun _ i =>
      if (ms i <? N) && (- N <? ms i) && ((N + ms i) mod 2 =? 1) then val i else RtoC 0) in
    _ <- guard (gamma <? 63) OverflowError ;;
    (* s_elm.at[el, L-1-el : L+el].set(val) *)
    upd2 assign s_elm (between el (el + 1)) (between (L - 1 - el) (L + el)) val).

Definition tiling_direction_jax (L N : Z) : res (arr2 C) := tiling_direction_jax_with loggamma L N.

(** ** Spin normalisation *)

(** filters.py:632-652 *)
Definition spin_normalization (el spin : Z) : res R :=
  factor <- for_ (zrange (- Z.abs spin + 1) (Z.abs spin + 1)) 1%R
              (fun s factor => Ok (factor * IZR (el + s))%R) ;;
  if 0 <? spin then np_sqrt factor
  else if reqb factor 0 then Err ZeroDivisionError
  else np_sqrt (1 / factor).

(** filters.py:655-665: el is a vector of ints.  The outer product and the
    row product are modelled although they are unreachable. *)
Definition spin_normalization_vectorised (el : list Z) (spin : Z) : res (arr1 R) :=
  factor <- reshape_1 ValueError (arange (- Z.abs spin + 1) (Z.abs spin + 1)) (2 * Z.abs spin + 1) ;;
  let prods := map (fun e => fold_right Z.mul 1 (map (fun s => e * s) factor)) el in
  np_sqrt1 (mk1 (Z.of_nat (length el))
              (fun i => powerRZ (IZR (nth (Z.to_nat i) prods 0)) (Z.sgn spin))).

(** filters.py:718-729 *)
Definition spin_normalization_jax (el : list Z) (spin : Z) : res (arr1 R) :=
  factor <- reshape_1 TypeError (arange (- Z.abs spin + 1) (Z.abs spin + 1)) (2 * Z.abs spin + 1) ;;
  let prods := map (fun e => fold_right Z.mul 1 (map (fun s => e * s) factor)) el in
  np_sqrt1 (mk1 (Z.of_nat (length el))
              (fun i => powerRZ (IZR (nth (Z.to_nat i) prods 0)) (Z.sgn spin))).

(** ** Directional filters *)

(** filters.py:84-155 *)
Definition filters_directional (L N J_min : Z) (lam : R) (spin spin0 : Z)
  : res (arr3 C * arr1 R) :=
  J <- j_max L lam ;;
  let el_min := Z.max (Z.abs spin) (Z.abs spin0) in
  phi <- zeros1 L ;;
  psi <- zeros3 (J + 1) L (2 * L - 1) ;;
  ' (kappa, kappa0) <- filters_axisym L J_min lam ;;
  s_elm <- tiling_direction L N ;;
  phi <- for_ (zrange el_min L) phi (fun el phi =>
    x <- rd1 kappa0 el ;;
    if negb (reqb x 0) then
      phi <- wr1 phi el (sqrt (IZR (2 * el + 1) / (4 * PI)) * x)%R ;;
      if negb (spin0 =? 0) then
        w <- spin_normalization el spin0 ;;
        y <- rd1 phi el ;;
        wr1 phi el (y * (w * msgn spin0))%R
      else Ok phi
    else Ok phi) ;;
  psi <- for_ (zrange J_min (J + 1)) psi (fun j psi =>
    for_ (zrange el_min L) psi (fun el psi =>
      kx <- rd2 kappa j el ;;
      if negb (reqb kx 0) then
        for_ (zrange (- el) (el + 1)) psi (fun m psi =>
          s <- rd2 s_elm el (L - 1 + m) ;;
          if Ceq_dec s (RtoC 0) then Ok psi
          else
            psi <- wr3 psi j el (L - 1 + m)
                     (Cmult (RtoC (sqrt (IZR (2 * el + 1) / (8 * PI * PI)) * kx)) s) ;;
            if negb (spin0 =? 0) then
              w <- spin_normalization el spin0 ;;
              y <- rd3 psi j el (L - 1 + m) ;;
              wr3 psi j el (L - 1 + m) (Cmult y (RtoC (w * msgn spin0)))
            else Ok psi)
      else Ok psi)) ;;
  Ok (psi, phi).

(** sqrt((2*arange(L)+1)/(4*pi)) and sqrt((2*arange(L)+1)/8)/pi  (filters.py:238, 241) *)
Definition scal_weights (L : Z) : arr1 R :=
  mk1 L (fun l => sqrt (IZR (2 * l + 1) / (4 * PI)))%R.
Definition wav_weights (L : Z) : arr1 R :=
  mk1 L (fun l => sqrt (IZR (2 * l + 1) / 8) / PI)%R.

(** filters.py:195-252 *)
Definition filters_directional_vectorised (L N J_min : Z) (lam : R) (spin spin0 : Z)
  : res (arr3 C * arr1 R) :=
  let el_min := Z.max (Z.abs spin) (Z.abs spin0) in
  spin_norms <- (if negb (spin0 =? 0)
                 then w <- spin_normalization_vectorised (arange 0 L) spin0 ;;
                      Ok (map1 (fun x => msgn spin0 * x)%R w)
                 else Ok (mk1 1 (fun _ => 1%R))) ;;
  ' (kappa, kappa0) <- filters_axisym_vectorised L J_min lam ;;
  s_elm <- tiling_direction L N ;;
  kappa0 <- mul1 kappa0 (scal_weights L) ;;
  kappa0 <- (if negb (spin0 =? 0) then mul1 kappa0 spin_norms else Ok kappa0) ;;
  kappa <- mul21 kappa (wav_weights L) ;;
  kappa <- einsum_ij_jk_ijk kappa s_elm ;;
  kappa <- (if negb (spin0 =? 0) then einsum_ijk_j_ijk kappa spin_norms else Ok kappa) ;;
  let kappa0 := fill1 kappa0 (upto el_min) 0%R in
  let kappa := fill3 kappa full (upto el_min) full (RtoC 0) in
  Ok (kappa, kappa0).

(** filters.py:293-348 *)
Definition filters_directional_jax (L N J_min : Z) (lam : R) (spin spin0 : Z)
  : res (arr3 C * arr1 R) :=
  let el_min := Z.max (Z.abs spin) (Z.abs spin0) in
  spin_norms <- (if negb (spin0 =? 0)
                 then w <- spin_normalization_jax (arange 0 L) spin0 ;;
                      Ok (map1 (fun x => msgn spin0 * x)%R w)
                 else Ok (mk1 1 (fun _ => 1%R))) ;;
  ' (kappa, kappa0) <- filters_axisym_jax L J_min lam ;;
  s_elm <- tiling_direction_jax L N ;;
  kappa0 <- mul1 kappa0 (scal_weights L) ;;
  kappa0 <- (if negb (spin0 =? 0) then mul1 kappa0 spin_norms else Ok kappa0) ;;
  kappa <- mul21 kappa (wav_weights L) ;;
  kappa <- einsum_ij_jk_ijk kappa s_elm ;;
  kappa <- (if negb (spin0 =? 0) then einsum_ijk_j_ijk kappa spin_norms else Ok kappa) ;;
  let kappa0 := fill1 kappa0 (upto el_min) 0%R in
  let kappa := fill3 kappa full (upto el_min) full (RtoC 0) in
  Ok (kappa, kappa0).
