(** * Vocabulary for the statements about the dilation 3 in binary64 *)

From Coq Require Import ZArith Reals List Bool.
From Flocq Require Import Core IEEE754.BinarySingleNaN.
From Verif Require Import Py ModelSamples ModelFloat ModelFloatDir ModelFloatTrans.
Open Scope Z_scope.

(** the library computes 3^0, ..., 3^(J+1) exactly, and 3^(-1) as a number in (0, 1] *)
Definition powers_of_three (fpow : f64 -> Z -> f64) (J : Z) : Prop :=
  (is_finite (fpow (fint 3) (-1)) = true /\ (0 < B2R (fpow (fint 3) (-1)%Z) <= 1)%R) /\
  forall j, 0 <= j <= J + 1 -> fpow (fint 3) j = fint (3 ^ j).

(** exp overflows to +inf above 710 (the exact threshold is 709.78...) *)
Definition overflowing_exp (fexp : f64 -> f64) : Prop :=
  forall x, flt (fint 710) x = true -> fexp x = finf.

(** the last of the 301 points a, a + h, ..., a + 300 h with h = (1 - a) / 300, as computed *)
Definition last_point (a : f64) : f64 :=
  fadd a (fmul (fint 300) (fdiv (fsub (fint 1) a) (fint 300))).

(** l lies in the band [3^(j-1), 3^j] of scale j and the last point beyond
    l / 3^j is computed greater than 1 *)
Definition oversteps (j l : Z) : Prop :=
  3 ^ j <= 3 * l /\ l <= 3 ^ j /\ flt (fint 1) (last_point (fdiv (fint l) (fint (3 ^ j)))) = true.

(** the forward transforms return coefficients in arrays of the shapes that s2fft documents *)
Definition documented_shapes (O : s2fft64) : Prop :=
  (forall f L spin s nside reality a, 1 <= L -> fwd64 O f L spin s nside reality = Ok a -> rows a = L /\ cols a = 2 * L - 1) /\
  (forall f L N L0 s nside reality a, 1 <= L -> 1 <= N -> wfwd64 O f L N L0 s reality nside = Ok a ->
     dim0 a = 2 * N - 1 /\ dim1 a = L /\ dim2 a = 2 * L - 1).
