(** * Vocabulary for the statements about binary64 *)

From Coq Require Import ZArith Reals List Bool.
From Flocq Require Import Core IEEE754.BinarySingleNaN.
From Verif Require Import Py ModelFloat.
Open Scope Z_scope.

(** the powers lam^(-1), ..., lam^(J+1) the library computes are finite,
    positive and strictly increasing, and lam^0 is 1 *)
Definition increasing_powers (fpow : f64 -> Z -> f64) (lam : f64) (J : Z) : Prop :=
  (forall j, -1 <= j <= J + 1 -> is_finite (fpow lam j) = true) /\
  (0 < B2R (fpow lam (-1)%Z))%R /\ B2R (fpow lam 0) = 1%R /\
  (forall j, -1 <= j <= J -> (B2R (fpow lam j) < B2R (fpow lam (j + 1)%Z))%R).

(** the library computes lam^j as one of the two binary64 numbers next to the
    exact value (and exactly when that is a binary64 number) *)
Definition faithful_power (fpow : f64 -> Z -> f64) (lam : f64) (j : Z) : Prop :=
  is_finite (fpow lam j) = true /\
  let p := powerRZ (B2R lam) j in
  (B2R (fpow lam j) = round radix2 (FLT_exp (-1074) 53) Zfloor p \/
   B2R (fpow lam j) = round radix2 (FLT_exp (-1074) 53) Zceil p).

(** the normalisation of the generating function is a positive number (or +inf) *)
Definition normalised (fexp : f64 -> f64) (lam : f64) : Prop :=
  exists il c, pydiv (fint 1) lam = Ok il /\ part_scaling_fn_fp fexp il (fint 1) 300 lam = Ok c /\ flt (fint 0) c = true.

(** sum of squares of the filters at multipole l *)
Definition fp_total (psi : arr2 f64) (phi : arr1 f64) (J_min J l : Z) : R :=
  (B2R (get1 phi l) ^ 2 + zrsum (J - J_min + 1) (fun i => B2R (get2 psi (J_min + i) l) ^ 2))%R.

(** the library computes exp x, for x <= -2, with an error of at most 2^-53
    (4 units in the last place of the largest value, exp(-2)) *)
Definition accurate_exp (fexp : f64 -> f64) : Prop :=
  forall x, is_finite x = true -> (B2R x <= -2)%R ->
    is_finite (fexp x) = true /\ (0 <= B2R (fexp x))%R /\
    (Rabs (B2R (fexp x) - exp (B2R x)) <= bpow radix2 (-53))%R.

(** the library computes 2^(-1), ..., 2^(J+1) exactly *)
Definition exact_powers (fpow : f64 -> Z -> f64) (J : Z) : Prop :=
  forall j, -1 <= j <= J + 1 -> is_finite (fpow (fint 2) j) = true /\ B2R (fpow (fint 2) j) = bpow radix2 j.
