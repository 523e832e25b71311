(** * Vocabulary for the statements about the dilation 4 in binary64 *)

From Coq Require Import ZArith Reals List Bool.
From Flocq Require Import Core IEEE754.BinarySingleNaN.
From Verif Require Import ModelFloat.
Open Scope Z_scope.

(** the library computes 4^0, ..., 4^(J+1) exactly, and 4^(-1) as a number in (0, 1] *)
Definition powers_of_four (fpow : f64 -> Z -> f64) (J : Z) : Prop :=
  (is_finite (fpow (fint 4) (-1)) = true /\ (0 < B2R (fpow (fint 4) (-1)%Z) <= 1)%R) /\
  forall j, 0 <= j <= J + 1 -> fpow (fint 4) j = fint (4 ^ j).
