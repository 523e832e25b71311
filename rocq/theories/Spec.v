(** * Specification vocabulary used in the property statements *)

From Coq Require Import ZArith Reals List Bool.
From Coquelicot Require Import Complex.
From Verif Require Import Py ModelSamples.
Import ListNotations.
Open Scope Z_scope.

(** J is the least integer with L <= lam^J *)
Definition least_scale (lam : R) (L J : Z) : Prop :=
  (IZR L <= powerRZ lam J)%R /\ forall J', (IZR L <= powerRZ lam J')%R -> J <= J'.

(** n is the integer just above x *)
Definition is_ceil (x : R) (n : Z) : Prop := (IZR n - 1 < x <= IZR n)%R.

(** sampling schemes for which s2fft defines a pixel shape *)
Definition sampling_known (s : sampling) (nside : option Z) : Prop :=
  match s with Unknown => False | HEALPIX => nside <> None | _ => True end.

(** sum of f i over lo <= i < hi *)
Definition sumZ (lo hi : Z) (f : Z -> R) : R :=
  fold_right Rplus 0%R (map (fun k => f (lo + Z.of_nat k)) (seq 0 (Z.to_nat (hi - lo)))).

(** ** Filters *)

(** the powers 2**gamma in the directional component, 0 <= gamma < min(N, L), fit into an int64 *)
Definition int64_powers (L N : Z) : Prop := N < 64 \/ L < 64 \/ (L = 64 /\ Z.Odd N).

(** squared scaling filter plus squared wavelet filters of the scales J_min..J at multipole l *)
Definition axi_total (psi : arr2 R) (phi : arr1 R) (J_min J l : Z) : R :=
  (get1 phi l ^ 2 + sumZ J_min (J + 1) (fun j => get2 psi j l ^ 2))%R.

(** the same for directional filters, with their (2l+1)/4pi and (2l+1)/8pi^2 normalisations *)
Definition dir_total (L : Z) (psi : arr3 C) (phi : arr1 R) (J_min J l : Z) : R :=
  (4 * PI / (2 * IZR l + 1) * get1 phi l ^ 2 +
   8 * PI ^ 2 / (2 * IZR l + 1) *
     sumZ J_min (J + 1) (fun j => sumZ (- l) (l + 1) (fun m => Cmod (get3 psi j l (L - 1 + m)) ^ 2)))%R.

(** l lies in the upper half of its octave (lam^(i-1), lam^i], or is zero *)
Definition upper_half (lam : R) (l : Z) : Prop :=
  l = 0 \/ exists i, ((1 + 1 / lam) / 2 * powerRZ lam i <= IZR l <= powerRZ lam i)%R.

(** the infinitely differentiable Schwartz function of the paper, divided by t *)
Definition kernel_integrand (lam t : R) : R :=
  let s := (2 * lam / (lam - 1) * (t - 1 / lam) - 1)%R in (exp (- (2 / (1 - s * s))) / t)%R.
(** trapezium rule on the panels first..n-2 of [a, 1] cut into n panels *)
Definition trapezium (lam a : R) (first n : Z) : R :=
  let h := ((1 - a) / IZR n)%R in
  sumZ first (n - 1) (fun i =>
    (h * ((kernel_integrand lam (a + IZR i * h) + kernel_integrand lam (a + IZR (i + 1) * h)) / 2))%R).

(** factorial of an integer, (l+s)!/(l-s)! *)
Definition factorial (z : Z) : R := INR (fact (Z.to_nat z)).
Definition spin_ratio (l s : Z) : R := (factorial (l + s) / factorial (l - s))%R.

(** (-1)^m *)
Definition sign_of (m : Z) : R := powerRZ (-1) m.

(** ** Transforms *)

(** sum of complex f i over lo <= i < hi *)
Definition csumZ (lo hi : Z) (f : Z -> C) : C :=
  fold_right Cplus (RtoC 0) (map (fun k => f (lo + Z.of_nat k)) (seq 0 (Z.to_nat (hi - lo)))).

(** run f on every element, stopping at the first error *)
Fixpoint mapM {A B} (f : A -> res B) (l : list A) : res (list B) :=
  match l with
  | [] => Ok []
  | x :: l' => y <- f x ;; ys <- mapM f l' ;; Ok (y :: ys)
  end.

(** Harmonic coefficients f_lm are stored at [l, L-1+m], Wigner coefficients
    W_lmn of band-limits (Lj, Nj) at [Nj-1+n, l, Lj-1+m].

    Wavelet coefficients at scale j:
    W_lmn = 8 pi^2/(2l+1) f_lm conj(psi_ln) for the orders n of the parity of Nj-1
    and for l >= L0j, zero otherwise *)
Definition wavelet_coefs (L : Z) (psi : arr3 C) (flm : arr2 C) (j Lj Nj L0j : Z) : arr3 C :=
  mk3 (2 * Nj - 1) Lj (2 * Lj - 1) (fun a l b =>
    let n := a - (Nj - 1) in let m := b - (Lj - 1) in
    if Z.even (n - (Nj - 1)) && (L0j <=? l)
    then Cmult (RtoC (8 * PI ^ 2 / (2 * IZR l + 1)))
               (Cmult (get2 flm l (L - 1 + m)) (Cconj (get3 psi j l (L - 1 + n))))
    else RtoC 0).
(** scaling coefficients: S_lm = sqrt(4 pi/(2l+1)) f_lm phi_l *)
Definition scaling_coefs (L : Z) (phi : arr1 R) (flm : arr2 C) (Ls : Z) : arr2 C :=
  mk2 Ls (2 * Ls - 1) (fun l b =>
    let m := b - (Ls - 1) in
    Cmult (get2 flm l (L - 1 + m)) (RtoC (sqrt (4 * PI / (2 * IZR l + 1)) * get1 phi l))).
(** the part of f_lm synthesised from the wavelet coefficients W of scale j *)
Definition wavelet_part (L : Z) (psi : arr3 C) (j Lj Nj L0j : Z) (W : arr3 C) (l m : Z) : C :=
  if (L0j <=? l) && (l <? Lj) && (Z.abs m <? Lj)
  then csumZ (- Nj + 1) Nj (fun n =>
         if Z.even (n - (Nj - 1))
         then Cmult (get3 W (Nj - 1 + n) l (Lj - 1 + m)) (get3 psi j l (L - 1 + n)) else RtoC 0)
  else RtoC 0.
(** the part synthesised from the scaling coefficients S *)
Definition scaling_part (phi : arr1 R) (Ls : Z) (S : arr2 C) (l m : Z) : C :=
  if (l <? Ls) && (Z.abs m <? Ls)
  then Cmult (get2 S l (Ls - 1 + m)) (RtoC (sqrt (4 * PI / (2 * IZR l + 1)) * get1 phi l))
  else RtoC 0.
(** f_lm = sum over the scales J_min..J plus the scaling part; [sz j] is (Lj, Nj, L0j) *)
Definition synthesised (L J_min J : Z) (psi : arr3 C) (phi : arr1 R) (sz : Z -> Z * Z * Z)
    (W : Z -> arr3 C) (Ls : Z) (S : arr2 C) : arr2 C :=
  mk2 L (2 * L - 1) (fun l b =>
    let m := b - (L - 1) in
    Cplus (csumZ J_min (J + 1) (fun j =>
             let '(Lj, Nj, L0j) := sz j in wavelet_part L psi j Lj Nj L0j (W j) l m))
          (scaling_part phi Ls S l m)).

(** harmonic coefficients of a spin field band-limited at L *)
Definition harmonic (L spin : Z) (flm : arr2 C) : Prop :=
  rows flm = L /\ cols flm = 2 * L - 1 /\
  forall l m, get2 flm l (L - 1 + m) <> RtoC 0 -> Z.abs spin <= l < L /\ Z.abs m <= l.
(** Wigner coefficients of a signal on SO(3) with band-limits L, N and lower limit L0 *)
Definition wigner (L N L0 : Z) (a : arr3 C) : Prop :=
  dim0 a = 2 * N - 1 /\ dim1 a = L /\ dim2 a = 2 * L - 1 /\
  forall n l m, get3 a (N - 1 + n) l (L - 1 + m) <> RtoC 0 ->
    0 <= l /\ L0 <= l < L /\ Z.abs m <= l /\ Z.abs n <= l /\ Z.abs n < N.
(** their symmetries when the signal is real *)
Definition real_harmonic (L : Z) (flm : arr2 C) : Prop :=
  forall l m, get2 flm l (L - 1 - m) = Cmult (RtoC (sign_of m)) (Cconj (get2 flm l (L - 1 + m))).
Definition real_wigner (L N : Z) (a : arr3 C) : Prop :=
  forall n l m, get3 a (N - 1 - n) l (L - 1 - m)
                = Cmult (RtoC (sign_of (m + n))) (Cconj (get3 a (N - 1 + n) l (L - 1 + m))).

(** coefficients multiplied by c l at every multipole l *)
Definition scale_l (c : Z -> R) (flm : arr2 C) : arr2 C :=
  mk2 (rows flm) (cols flm) (fun l q => Cmult (RtoC (c l)) (get2 flm l q)).

(** [inv] and [fwd] are a sampling theorem for the coefficients satisfying P:
    fwd recovers them exactly from the pixels computed by inv *)
Definition inverts {A} (P : A -> Prop) (shape : res (list Z))
    (inv : A -> res nd) (fwd : nd -> res A) : Prop :=
  forall a, P a -> exists f, inv a = Ok f /\ shape = Ok (nshape f) /\ fwd f = Ok a.
Definition is_harmonic (L spin : Z) (reality : bool) (a : arr2 C) : Prop :=
  harmonic L spin a /\ (reality = true -> real_harmonic L a).
Definition is_wigner (L N L0 : Z) (reality : bool) (a : arr3 C) : Prop :=
  wigner L N L0 a /\ (reality = true -> real_wigner L N a).
