(** * Specification vocabulary: the documented integrals behind k_lam *)

From Coq Require Import ZArith Reals.
From Coquelicot Require Import Coquelicot.
From Verif Require Import Py.
Open Scope R_scope.

(** the Schwartz function exp(-2/(1-s^2)) on (-1, 1), zero elsewhere (the square of the paper's s) *)
Definition bump (s : R) : R := if Rlt_dec (s * s) 1 then exp (- (2 / (1 - s * s))) else 0.

(** the integrand s_lam(t)^2 / t *)
Definition tiling (lam t : R) : R := bump (2 * lam / (lam - 1) * (t - 1 / lam) - 1) / t.

(** k_lam(t): the ratio of integrals in the documentation of k_lam (filters.py:427-431) *)
Definition generating (lam t : R) : R := RInt (tiling lam) t 1 / RInt (tiling lam) (1 / lam) 1.

(** the error allowed for the quadrature with n panels *)
Definition quad_error (lam : R) (n : Z) : R := 4 * lam * ((lam + 3) ^ 2 + 21) / IZR n ^ 2.

(** coefficients a agree with b up to the relative error e *)
Definition coefs_near (L : Z) (e : R) (a b : arr2 C) : Prop :=
  shape2 a = shape2 b /\
  forall l m, (0 <= l < L)%Z -> (Z.abs m <= l)%Z ->
    Cmod (Cminus (get2 a l (L - 1 + m)%Z) (get2 b l (L - 1 + m)%Z)) <= e * Cmod (get2 b l (L - 1 + m)%Z).
