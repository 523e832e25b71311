(** * Sizes and axisymmetric filters in binary64 *)

From Coq Require Import ZArith Reals List Bool.
From Flocq Require Import Core IEEE754.BinarySingleNaN.
From Verif Require Import Py ModelSamples ModelFilters ModelFloat SpecFp.
From Verif Require Import FloatFilterProps.
Import ListNotations.
Open Scope Z_scope.

(** ** C61: sizes *)
(** the multiresolution band-limits the library computes enclose the support of the filters it computes, exactly,
   whatever the rounding errors of its powers *)
Theorem C61_wavelet_support : forall fexp fpow J L N J_min lam psi phi, L <= 2 ^ 53 ->
  increasing_powers fpow lam J -> normalised fexp lam ->
  filters_axisym_fp fexp fpow J L J_min lam = Ok (psi, phi) \/
  filters_axisym_vectorised_fp fexp fpow J L J_min lam = Ok (psi, phi) ->
  forall j l Lj Nj L0j, 0 <= j <= J -> 0 <= l < L -> LN_j_fp fpow L j N lam true = Ok (Lj, Nj, L0j) ->
  get2 psi j l <> fint 0 -> L0j <= l < Lj.
Proof. exact fp_support. Qed.
Print Assumptions C61_wavelet_support.

Theorem C61_scaling_support : forall fexp fpow J L J_min lam psi phi, L <= 2 ^ 53 ->
  increasing_powers fpow lam J -> normalised fexp lam ->
  filters_axisym_fp fexp fpow J L J_min lam = Ok (psi, phi) \/
  filters_axisym_vectorised_fp fexp fpow J L J_min lam = Ok (psi, phi) ->
  forall l Ls, 0 <= l < L -> scal_bandlimit_fp fpow L J_min lam true = Ok Ls ->
  get1 phi l <> fint 0 -> l < Ls.
Proof. exact fp_support_scal. Qed.
Print Assumptions C61_scaling_support.

(** each band-limit is the exact one or, when the computed power is an integer just below the exact power, one less *)
Theorem C61_bandlimits_within_one : forall fpow lam L j, Z.abs L <= 2 ^ 53 -> 0 <= j -> (0 < B2R lam)%R ->
  faithful_power fpow lam (Z.max 1 j + 1) -> faithful_power fpow lam j ->
  (exists e r, wav_j_bandlimit L j (B2R lam) true = Ok e /\ wav_j_bandlimit_fp fpow L j lam true = Ok r /\
     (r = e \/ (r = e - 1 /\ B2R (fpow lam (Z.max 1 j + 1)%Z) = IZR r /\ (IZR r < powerRZ (B2R lam) (Z.max 1 j + 1)%Z)%R))) /\
  (exists e r, scal_bandlimit L j (B2R lam) true = Ok e /\ scal_bandlimit_fp fpow L j lam true = Ok r /\
     (r = e \/ (r = e - 1 /\ B2R (fpow lam j) = IZR r /\ (IZR r < powerRZ (B2R lam) j)%R))).
Proof. exact fp_bandlimits. Qed.
Print Assumptions C61_bandlimits_within_one.

(** for integer dilations the sizes are the exact ones *)
Theorem C61_sizes_exact_for_integer_dilations : forall fpow k L j N mr, 2 <= k <= 2 ^ 53 -> Z.abs L <= 2 ^ 53 -> 0 <= j ->
  k ^ (Z.max 1 j - 1) <= 2 ^ 53 ->
  (forall i, 0 <= i <= Z.max 1 j + 1 -> faithful_power fpow (fint k) i) ->
  LN_j_fp fpow L j N (fint k) mr = LN_j L j N (IZR k) mr /\
  scal_bandlimit_fp fpow L j (fint k) mr = scal_bandlimit L j (IZR k) mr.
Proof. exact fp_sizes_int. Qed.
Print Assumptions C61_sizes_exact_for_integer_dilations.

(** lam = 2, L = 5: the filters exist, the hypotheses hold, and psi[1, 3] is in the support *)
Example C61_support_example : exists fexp fpow psi phi, increasing_powers fpow (fint 2) 3 /\ normalised fexp (fint 2) /\
  filters_axisym_vectorised_fp fexp fpow 3 5 0 (fint 2) = Ok (psi, phi) /\ get2 psi 1 3 <> fint 0 /\
  LN_j_fp fpow 5 1 1 (fint 2) true = Ok (4, 1, 1).
Proof. exact ex_fp_support. Qed.

Example C61_sizes_example : exists fpow, forall j, -1074 <= j < 1024 -> faithful_power fpow (fint 2) j.
Proof. exact ex_fp_sizes. Qed.

(** the off-by-one does occur: at lam = sqrt(17) rounded to binary64, scale 1 has computed band-limit 17, exact band-limit 18 *)
Theorem C61_off_by_one_occurs : exists lam fpow, is_finite lam = true /\ faithful_power fpow lam 2 /\
  wav_j_bandlimit 100 1 (B2R lam) true = Ok 18 /\ wav_j_bandlimit_fp fpow 100 1 lam true = Ok 17.
Proof. exact fp_off_by_one. Qed.
Print Assumptions C61_off_by_one_occurs.

(** ** C62: admissibility *)
(** when the computed generating function lies in [0, 1], the squares of the computed filters sum to 1 within 2^-51 *)
Theorem C62_admissible_up_to_rounding : forall fexp fpow J L J_min lam psi phi k l, L <= 2 ^ 53 ->
  increasing_powers fpow lam J -> (IZR L <= B2R (fpow lam J))%R -> normalised fexp lam ->
  filters_axisym_fp fexp fpow J L J_min lam = Ok (psi, phi) \/
  filters_axisym_vectorised_fp fexp fpow J L J_min lam = Ok (psi, phi) ->
  k_lam_fp fexp fpow J L lam 300 = Ok k -> 0 <= l < L ->
  (forall j, J_min <= j <= J -> is_finite (get2 k j l) = true /\ (0 <= B2R (get2 k j l) <= 1)%R) ->
  (Rabs (fp_total psi phi J_min J l - 1) <= bpow radix2 (-51))%R.
Proof. exact fp_admissible. Qed.
Print Assumptions C62_admissible_up_to_rounding.

(** in general the vectorised filters sum to the largest entry of the column, if that exceeds 1 *)
Theorem C62_excess_is_quadrature : forall fexp fpow J L J_min lam psi phi k l, L <= 2 ^ 53 ->
  increasing_powers fpow lam J -> (IZR L <= B2R (fpow lam J))%R -> normalised fexp lam ->
  filters_axisym_vectorised_fp fexp fpow J L J_min lam = Ok (psi, phi) ->
  k_lam_fp fexp fpow J L lam 300 = Ok k -> 0 <= l < L ->
  (forall j, J_min <= j <= J -> is_finite (get2 k j l) = true /\ (0 <= B2R (get2 k j l))%R) ->
  ((forall j, J_min <= j <= J -> (B2R (get2 k j l) <= 1)%R) /\
   (Rabs (fp_total psi phi J_min J l - 1) <= bpow radix2 (-51))%R) \/
  exists j, J_min <= j <= J /\ (1 < B2R (get2 k j l))%R /\
    (Rabs (fp_total psi phi J_min J l - B2R (get2 k j l)) <= bpow radix2 (-51) * B2R (get2 k j l))%R.
Proof. exact fp_excess. Qed.
Print Assumptions C62_excess_is_quadrature.

Example C62_example : exists fexp fpow psi phi k, increasing_powers fpow (fint 2) 3 /\ (IZR 5 <= B2R (fpow (fint 2) 3%Z))%R /\
  normalised fexp (fint 2) /\ filters_axisym_vectorised_fp fexp fpow 3 5 0 (fint 2) = Ok (psi, phi) /\
  k_lam_fp fexp fpow 3 5 (fint 2) 300 = Ok k /\
  (forall j l, 0 <= j <= 3 -> 0 <= l < 5 -> is_finite (get2 k j l) = true /\ (0 <= B2R (get2 k j l) <= 1)%R) /\
  get2 k 2 3 <> fint 1 /\ get2 k 2 3 <> fint 0.
Proof. exact ex_fp_adm. Qed.
