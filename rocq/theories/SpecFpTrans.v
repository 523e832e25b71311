(** * Vocabulary for the statements about the binary64 transforms *)

From Coq Require Import ZArith Reals List Bool Permutation.
From Coquelicot Require Import Complex.
From Flocq Require Import Core IEEE754.BinarySingleNaN.
From Verif Require Import Py ModelSamples ModelFloat ModelFloatDir ModelFloatTrans Spec SpecTransforms SpecFpDir.
Import ListNotations.
Open Scope Z_scope.

(** x is obtained from the numbers of the list by binary64 additions, in some order and bracketing *)
Inductive adds : list f64 -> f64 -> Prop :=
| adds_nil : adds [] (fint 0)
| adds_one x : adds [x] x
| adds_two xs ys zs x y : adds xs x -> adds ys y -> Permutation (xs ++ ys) zs -> adds zs (fadd x y).
(** np.einsum adds up in whatever order it likes, which may depend on the entry computed *)
Definition summation (fsum : Z -> Z -> list f64 -> f64) : Prop := forall l m xs, adds xs (fsum l m xs).

(** both parts are numbers, neither infinite nor NaN *)
Definition finite64 (z : c64) : Prop := is_finite (fst z) = true /\ is_finite (snd z) = true.
(** the entries are numbers of modulus at most B *)
Definition numbers2 (B : R) (a : arr2 c64) : Prop := forall i j, 0 <= i < rows a -> 0 <= j < cols a ->
  finite64 (get2 a i j) /\ (Cmod (cval (get2 a i j)) <= B)%R.
Definition numbers3 (B : R) (a : arr3 c64) : Prop := forall i j k, 0 <= i < dim0 a -> 0 <= j < dim1 a -> 0 <= k < dim2 a ->
  finite64 (get3 a i j k) /\ (Cmod (cval (get3 a i j k)) <= B)%R.

(** the real and complex numbers that arrays stand for *)
Definition vals1 (a : arr1 f64) : arr1 R := mk1 (len1 a) (fun i => B2R (get1 a i)).
Definition vals2 (a : arr2 c64) : arr2 C := mk2 (rows a) (cols a) (fun i j => cval (get2 a i j)).
Definition vals3 (a : arr3 c64) : arr3 C := mk3 (dim0 a) (dim1 a) (dim2 a) (fun i j k => cval (get3 a i j k)).
(** arrays of moduli *)
Definition abs1 (a : arr1 R) : arr1 R := mk1 (len1 a) (fun i => Rabs (get1 a i)).
Definition abs2 (a : arr2 C) : arr2 C := mk2 (rows a) (cols a) (fun i j => RtoC (Cmod (get2 a i j))).
Definition abs3 (a : arr3 C) : arr3 C := mk3 (dim0 a) (dim1 a) (dim2 a) (fun i j k => RtoC (Cmod (get3 a i j k))).

(** the entries of a are numbers, and approximate those of b: |a - b| <= r |b| + t *)
Definition near2 (r t : R) (a : arr2 c64) (b : arr2 C) : Prop :=
  rows a = rows b /\ cols a = cols b /\ forall i j, 0 <= i < rows b -> 0 <= j < cols b ->
    finite64 (get2 a i j) /\ (Cmod (cval (get2 a i j) - get2 b i j)%C <= r * Cmod (get2 b i j) + t)%R.
Definition near3 (r t : R) (a : arr3 c64) (b : arr3 C) : Prop :=
  dim0 a = dim0 b /\ dim1 a = dim1 b /\ dim2 a = dim2 b /\
  forall i j k, 0 <= i < dim0 b -> 0 <= j < dim1 b -> 0 <= k < dim2 b ->
    finite64 (get3 a i j k) /\ (Cmod (cval (get3 a i j k) - get3 b i j k)%C <= r * Cmod (get3 b i j k) + t)%R.

(** fwd recovers the coefficients satisfying P from the pixels computed by inv, up to an error of at most d
    times any bound B on them, from 2^-900 to 2^800; what it returns again satisfies P, and the pixels satisfy Q *)
Definition inverts2 (d : R) (P : arr2 C -> Prop) (Q : nd64 -> Prop) (inv : arr2 c64 -> res nd64) (fwd : nd64 -> res (arr2 c64)) : Prop :=
  forall a B, (bpow radix2 (-900) <= B <= bpow radix2 800)%R -> P (vals2 a) -> numbers2 B a ->
    exists f b, inv a = Ok f /\ Q f /\ fwd f = Ok b /\ P (vals2 b) /\ near2 0 (d * B) b (vals2 a).
Definition inverts3 (d : R) (P : arr3 C -> Prop) (Q : nd64 -> Prop) (inv : arr3 c64 -> res nd64) (fwd : nd64 -> res (arr3 c64)) : Prop :=
  forall a B, (bpow radix2 (-900) <= B <= bpow radix2 800)%R -> P (vals3 a) -> numbers3 B a ->
    exists f b, inv a = Ok f /\ Q f /\ fwd f = Ok b /\ P (vals3 b) /\ near3 0 (d * B) b (vals3 a).

(** s2fft's transforms in complex128 invert each other up to a relative error d, at band-limits up to Lm;
    with [shaped] the arrays of pixels have the shapes that s2fft documents *)
Definition accurate64 (shaped : bool) (d : R) (O : s2fft64) (Lm spin : Z) (s : sampling) (nside : option Z) (reality : bool) : Prop :=
  (forall L, 1 <= L <= Lm -> inverts2 d (is_harmonic L spin reality) (fun f => shaped = true -> s2_f_shape L s nside = Ok (nshape64 f))
     (fun a => inv64 O a L spin s nside reality) (fun f => fwd64 O f L spin s nside reality)) /\
  (forall L N L0, 1 <= L <= Lm -> 1 <= N <= L + 1 -> 0 <= L0 <= L ->
     inverts3 d (is_wigner L N L0 reality) (fun f => shaped = true -> so3_f_shape L N s nside = Ok (nshape64 f))
     (fun a => winv64 O a L N L0 s reality nside) (fun f => wfwd64 O f L N L0 s reality nside)).
