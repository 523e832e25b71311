(** * The size of the wavelet maps *)

From Coq Require Import ZArith Reals List Bool.
From Coquelicot Require Import Complex.
From Verif Require Import Py ModelSamples Spec SpecStorage.
From Verif Require Import StorageProps.
Import ListNotations.
Open Scope Z_scope.

(** ** C82: storage *)
(** the wavelet maps of all the scales together take a fixed multiple of one map at full resolution, whatever the number of scales *)
Theorem C82_multiresolution_storage : forall L N J_min lam s nside d J w,
  1 <= L -> (1 < lam)%R -> 1 <= N -> density s = Some d -> j_max L lam = Ok J -> 0 <= J_min <= J + 1 ->
  construct_f L N J_min lam s nside true = Ok w ->
  (IZR (storage w) <= IZR (d * (2 * N - 1))%Z * ((3 + 4 * (lam * lam / (lam * lam - 1))) * (IZR L * IZR L)))%R.
Proof. exact storage_gen. Qed.
Print Assumptions C82_multiresolution_storage.

Theorem C82_default_dilation : forall L N J_min s nside d J w,
  1 <= L -> 1 <= N -> density s = Some d -> j_max L 2 = Ok J -> 0 <= J_min <= J + 1 ->
  construct_f L N J_min 2 s nside true = Ok w ->
  3 * storage w <= d * (2 * N - 1) * (10 * (L * L) + 32).
Proof. exact storage_two. Qed.
Print Assumptions C82_default_dilation.

(** at full resolution it is one map per scale *)
Theorem C82_full_resolution_storage : forall L N J_min lam s nside J w sh,
  1 <= L -> (1 < lam)%R -> 1 <= N -> sampling_known s nside -> j_max L lam = Ok J -> J_min <= J + 1 ->
  construct_f L N J_min lam s nside false = Ok w -> so3_f_shape L N s nside = Ok sh ->
  storage w = (J - J_min + 1) * n_entries sh /\
  n_entries sh = (2 * N - 1) *
    match s with MW | GL => L * (2 * L - 1) | MWSS => (L + 1) * (2 * L) | DH => 2 * L * (2 * L - 1)
    | HEALPIX => match nside with Some k => 12 * (k * k) | None => 0 end | Unknown => 0 end.
Proof. exact storage_full. Qed.
Print Assumptions C82_full_resolution_storage.

(** L = 5, N = 3, scales 0 to 3, MW sampling *)
Example C82_example : exists w w', j_max 5 2 = Ok 3 /\ density MW = Some 2 /\
  construct_f 5 3 0 2 MW None true = Ok w /\ construct_f 5 3 0 2 MW None false = Ok w' /\
  storage w' = 4 * (5 * (5 * 9)) /\ 3 * storage w <= 2 * (2 * 3 - 1) * (10 * (5 * 5) + 32).
Proof. exact ex_c82. Qed.
