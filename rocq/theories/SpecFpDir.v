(** * Vocabulary for the statements about the binary64 directional filters *)

From Coq Require Import ZArith Reals List Bool Factorial.
From Coquelicot Require Import Complex.
From Flocq Require Import Core IEEE754.BinarySingleNaN.
From Verif Require Import Py ModelFloat ModelFloatDir Spec.
Open Scope Z_scope.

(** the library computes ln n! for n <= 40 with an error of at most 2^-47 (1 + ln n!) *)
Definition accurate_loggamma (flg : f64 -> f64) : Prop :=
  forall n : nat, (n <= 40)%nat -> let y := flg (fint (Z.of_nat n + 1)) in
    is_finite y = true /\ (Rabs (B2R y - ln (INR (fact n))) <= bpow radix2 (-47) * (1 + ln (INR (fact n))))%R.

(** the library computes exp x for -1 <= x <= 30 with a relative error of at most 2^-47 *)
Definition relative_exp (fexp : f64 -> f64) : Prop :=
  forall x, is_finite x = true -> (-1 <= B2R x <= 30)%R ->
    is_finite (fexp x) = true /\ (Rabs (B2R (fexp x) - exp (B2R x)) <= bpow radix2 (-47) * exp (B2R x))%R.

(** the complex number a pair stands for *)
Definition cval (z : c64) : C := (B2R (fst z), B2R (snd z)).

(** sum of the normalised squares of the numbers the filters stand for, at multipole l *)
Definition fp_dir_total (L : Z) (psi : arr3 c64) (phi : arr1 f64) (J_min J l : Z) : R :=
  dir_total L (mk3 (J + 1) L (2 * L - 1) (fun j l q => cval (get3 psi j l q))) (mk1 L (fun l => B2R (get1 phi l))) J_min J l.

(** the binary64 number nearest to x (ties to even) *)
Definition nearest64 (x : R) : R := round radix2 (FLT_exp (-1074) 53) ZnearestE x.

(** every power of two that occurs as a denominator is a float *)
Definition float_powers (L N : Z) : Prop := N <= 1024 \/ L <= 1024 \/ (L = 1025 /\ Z.Even N).
