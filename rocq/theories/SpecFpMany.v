(** What is assumed of the library in PropertiesFloatMany.v: as in SpecFpDir.v, on a wider range *)
From Coq Require Import ZArith Reals Factorial.
From Flocq Require Import Core IEEE754.BinarySingleNaN.
From Verif Require Import ModelFloat.
Open Scope Z_scope.

(** the library computes ln n! for n <= M with an error of at most 2^-47 (1 + ln n!) *)
Definition accurate_loggamma_to (M : nat) (flg : f64 -> f64) : Prop :=
  forall n : nat, (n <= M)%nat -> let y := flg (fint (Z.of_nat n + 1)) in
    is_finite y = true /\ (Rabs (B2R y - ln (INR (fact n))) <= bpow radix2 (-47) * (1 + ln (INR (fact n))))%R.

(** the library computes exp x for -1 <= x <= b with a relative error of at most 2^-47 *)
Definition relative_exp_to (b : R) (fexp : f64 -> f64) : Prop :=
  forall x, is_finite x = true -> (-1 <= B2R x <= b)%R ->
    is_finite (fexp x) = true /\ (Rabs (B2R (fexp x) - exp (B2R x)) <= bpow radix2 (-47) * exp (B2R x))%R.
