(** * Specification vocabulary: rotations of a filter about the z axis *)

From Coq Require Import ZArith Reals.
From Coquelicot Require Import Complex.
From Verif Require Import Py Spec.
Open Scope R_scope.

(** exp(i x) *)
Definition cis (x : R) : C := (cos x, sin x).

(** harmonic coefficient (l, m) of the wavelet of scale j rotated by the angle g about the z axis *)
Definition rotated (L : Z) (psi : arr3 C) (g : R) (j l m : Z) : C :=
  Cmult (cis (- (IZR m * g))) (get3 psi j l (L - 1 + m)%Z).

(** steering weight: mean of cos(n x) over n = -(N-1), -(N-3), ..., N-1 *)
Definition steer_weight (N : Z) (x : R) : R :=
  sumZ 0 N (fun t => cos (IZR (2 * t - (N - 1)) * x)) / IZR N.

(** exponent of the directional auto-correlation at degree l: min(N-1, l), lowered to the parity of N-1 *)
Definition directional_exponent (N l : Z) : Z :=
  if Z.even (l - (N - 1)) then Z.min (N - 1) l else Z.min (N - 1) (l - 1).
