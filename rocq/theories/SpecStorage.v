(** * Vocabulary for the statements about storage (C82) *)

From Coq Require Import ZArith List.
From Verif Require Import Py ModelSamples.
Open Scope Z_scope.

(** the number of entries of an array of the given shape *)
Definition n_entries (sh : list Z) : Z := fold_right Z.mul 1 sh.
(** the number of entries of all the arrays of a list *)
Definition storage (w : list nd) : Z := fold_right (fun f n => n_entries (nshape f) + n) 0 w.
(** the samplings with a number of pixels set by the band-limit; a map at band-limit L has at most [density s] L^2 of them *)
Definition density (s : sampling) : option Z :=
  match s with MW | GL => Some 2 | MWSS | DH => Some 4 | _ => None end.
