(** * Hypotheses on the modulus in binary64 *)

From Coq Require Import ZArith Reals.
From Coquelicot Require Import Complex.
From Flocq Require Import Core IEEE754.BinarySingleNaN.
From Verif Require Import ModelFloat ModelFloatDir SpecFpDir.
Open Scope Z_scope.

(** the library's modulus of 0 is 0, and it is within one unit in the last place for moduli up to 2^1000 *)
Definition accurate_hypot (fhyp : f64 -> f64 -> f64) : Prop :=
  fhyp (fint 0) (fint 0) = fint 0 /\
  forall z : c64, is_finite (fst z) = true -> is_finite (snd z) = true -> (Cmod (cval z) <= bpow radix2 1000)%R ->
    is_finite (fhyp (fst z) (snd z)) = true /\ (0 <= B2R (fhyp (fst z) (snd z)))%R /\
    (Rabs (B2R (fhyp (fst z) (snd z)) - Cmod (cval z)) <= bpow radix2 (-52) * Cmod (cval z) + bpow radix2 (-1074))%R.
