(** * Binomial coefficients and the directional component in binary64 *)

From Coq Require Import ZArith Reals List Bool.
From Coquelicot Require Import Complex.
From Flocq Require Import Core IEEE754.BinarySingleNaN.
Import ListNotations.
From Verif Require Import Py ModelSamples ModelFilters ModelFloat ModelFloatDir Spec SpecQuad SpecFp SpecFpDir.
From Verif Require Import FloatDirProps.
Import ListNotations.
Open Scope Z_scope.

(** ** C65: binomial coefficients and the directional component *)
Theorem C65_binomial_exact : forall flg fexp (n k : nat), accurate_loggamma flg -> relative_exp fexp -> (k <= n <= 40)%nat ->
  let b := binomial_fp flg fexp (Z.of_nat n) (fint (Z.of_nat k)) in
  is_finite b = true /\ B2R b = Binomial.C n k.
Proof. exact fp_binomial. Qed.
Print Assumptions C65_binomial_exact.

(** with more than 53 bits the result cannot be exact, whatever the library *)
Theorem C65_binomial_inexact : forall flg fexp, B2R (binomial_fp flg fexp 63 (fint 31)) <> Binomial.C 63 31.
Proof. exact fp_binomial_inexact. Qed.
Print Assumptions C65_binomial_inexact.

(** returned, whatever the library, if the powers of two are floats; zero outside the band *)
Theorem C65_component_total : forall flg fexp L N, 1 <= L -> float_powers L N ->
  exists s, tiling_direction_fp flg fexp L N = Ok s /\ shape2 s = [L; 2 * L - 1] /\
    (forall l m, 0 <= l < L -> Z.abs m < L -> cval (get2 s l (L - 1 + m)) <> RtoC 0 ->
       1 <= l /\ Z.abs m <= l /\ Z.abs m <= N - 1 /\ Z.even (m - (N - 1)) = true).
Proof. exact fp_dir_total_any. Qed.
Print Assumptions C65_component_total.

(** every entry is the binary64 number nearest to the exact one *)
Theorem C65_component_rounded : forall flg fexp L N, accurate_loggamma flg -> relative_exp fexp -> 1 <= L -> 1 <= N <= 41 ->
  exists sf s, tiling_direction_fp flg fexp L N = Ok sf /\ tiling_direction L N = Ok s /\ shape2 sf = shape2 s /\
    (forall l m, 0 <= l < L -> Z.abs m < L ->
       is_finite (fst (get2 sf l (L - 1 + m))) = true /\ is_finite (snd (get2 sf l (L - 1 + m))) = true /\
       cval (get2 sf l (L - 1 + m)) = (nearest64 (fst (get2 s l (L - 1 + m))), nearest64 (snd (get2 s l (L - 1 + m))))).
Proof. exact fp_dir_rounded. Qed.
Print Assumptions C65_component_rounded.

(** exactly even in the order: the reality condition of the wavelets survives rounding *)
Theorem C65_component_even : forall flg fexp L N s, accurate_loggamma flg -> relative_exp fexp -> 1 <= L -> 1 <= N <= 41 ->
  tiling_direction_fp flg fexp L N = Ok s ->
  forall l m, 0 <= l < L -> Z.abs m < L -> get2 s l (L - 1 - m) = get2 s l (L - 1 + m).
Proof. exact fp_dir_even. Qed.
Print Assumptions C65_component_even.

(** normalised up to rounding *)
Theorem C65_component_normalised : forall flg fexp L N s, accurate_loggamma flg -> relative_exp fexp -> 1 <= L -> 1 <= N <= 41 ->
  tiling_direction_fp flg fexp L N = Ok s ->
  forall l, 1 <= l < L -> (Rabs (sumZ (- l) (l + 1) (fun m => Cmod (cval (get2 s l (L - 1 + m))) ^ 2) - 1) <= bpow radix2 (-50))%R.
Proof. exact fp_dir_normalised. Qed.
Print Assumptions C65_component_normalised.

(** a library meeting the hypotheses: real values, to 2^-60, rounded *)
(** a library meets the hypotheses; with it the entry of degree 2 and order 0 for N = 3 is sqrt(1/2), rounded *)
Example C65_example : exists flg fexp s, accurate_loggamma flg /\ relative_exp fexp /\ tiling_direction_fp flg fexp 4 3 = Ok s /\
  B2R (binomial_fp flg fexp 40 (fint 20)) = Binomial.C 40 20 /\
  cval (get2 s 2 (4 - 1 + 0)) = RtoC (nearest64 (sqrt (2 / 4))).
Proof. exact ex_fp_dir. Qed.
