(** * Behaviour in binary64 *)

From Coq Require Import ZArith Reals List Bool.
From Flocq Require Import Core IEEE754.BinarySingleNaN.
Import ListNotations.
From Verif Require Import Py ModelSamples ModelFilters ModelFloat.
From Verif Require Import FloatProps.
Import ListNotations.
Open Scope Z_scope.

(** ** C45: j_max *)
(** within one scale of the exact value, for every dilation *)
Theorem C45_within_one_scale : forall flog L lam J, 1 <= L <= 2 ^ 53 -> (1 + bpow radix2 (-43) <= lam <= bpow radix2 1024)%R ->
  accurate_at flog (IZR L) -> accurate_at flog lam -> j_max L lam = Ok J ->
  J - 1 <= j_max_fp flog L lam <= J + 1.
Proof. exact fp_within_one. Qed.
Print Assumptions C45_within_one_scale.

(** for an integer dilation the computed scale covers the band-limit, and is exact unless L is a power of lam *)
Theorem C45_integer_dilations : forall flog L k J, 1 <= L <= 2 ^ 43 -> 2 <= k <= 2 ^ 1023 ->
  accurate_at flog (IZR L) -> accurate_at flog (IZR k) -> j_max L (IZR k) = Ok J ->
  (j_max_fp flog L (IZR k) = J \/ (j_max_fp flog L (IZR k) = J + 1 /\ L = k ^ J)) /\
  (IZR L <= powerRZ (IZR k) (j_max_fp flog L (IZR k)))%R.
Proof. exact fp_integer. Qed.
Print Assumptions C45_integer_dilations.

(** the computed scale keeps the generating function complete; when it is one too large the added scale is
   redundant: both of its generating rows are identically one, so its filter is zero *)
Theorem C45_extra_scale_is_empty : forall flog L k J n norm l, 1 <= L <= 2 ^ 43 -> 2 <= k <= 2 ^ 1023 ->
  accurate_at flog (IZR L) -> accurate_at flog (IZR k) -> j_max L (IZR k) = Ok J -> 0 <= l < L ->
  k_entry (j_max_fp flog L (IZR k) + 1) l (IZR k) n norm = Ok 1%R /\
  (j_max_fp flog L (IZR k) <> J -> k_entry (j_max_fp flog L (IZR k)) l (IZR k) n norm = Ok 1%R).
Proof. exact fp_rows. Qed.
Print Assumptions C45_extra_scale_is_empty.

(** the additional scale does occur: correctly rounded logarithms give 4 scales for L = 125, lam = 5 *)
Theorem C45_extra_scale_occurs : j_max 125 5 = Ok 3 /\ j_max_fp (fun x => rnd64 (ln x)) 125 5 = 4 /\
  accurate_at (fun x => rnd64 (ln x)) 125 /\ accurate_at (fun x => rnd64 (ln x)) 5.
Proof. exact fp_125. Qed.
Print Assumptions C45_extra_scale_occurs.

Example C45_example : accurate_at ln (IZR 125) /\ accurate_at ln 5%R /\ j_max 125 5 = Ok 3.
Proof. exact fp_example. Qed.

(** ** C46: the quadrature and k_lam *)
(** the normalisation at scale base 5 is +inf, so no entry of k_lam lies strictly between 0 and 1 *)
Theorem C46_base_five_degenerate : forall (fexp : f64 -> f64) fpow J L k,
  (forall x, is_nan x = false -> is_nan (fexp x) = false /\ Bsign (fexp x) = false) ->
  (forall x, flt (fint 710) x = true -> fexp x = finf) ->
  k_lam_fp fexp fpow J L (fint 5) 300 = Ok k ->
  rows k = J + 2 /\ cols k = L /\
  forall j l, 0 <= j < J + 2 -> 0 <= l < L ->
    get2 k j l = fint 1 \/ feq (get2 k j l) (fint 0) = true \/ is_nan (get2 k j l) = true.
Proof. exact fp_five. Qed.
Print Assumptions C46_base_five_degenerate.

(** The same quadrature at scale base 10 fails on l = 11, j = 2: the last
    abscissa is so close to 1 that 1 - s^2 is 0, but it is not 1. *)
Theorem C46_base_ten_fails : forall fexp fpow J L,
  fpow (fint 10) 1 = fint 10 -> fpow (fint 10) 2 = fint 100 -> 12 <= L -> 1 <= J ->
  k_lam_fp fexp fpow J L (fint 10) 300 = Err ZeroDivisionError.
Proof. exact fp_ten. Qed.
Print Assumptions C46_base_ten_fails.

(** With the default base 2, and with 3 and 4, all abscissae stay inside and the
    normalisation is finite. *)
Theorem C46_small_bases_finite : forall (fexp : f64 -> f64) lam,
  (forall x, flt x (fint 0) = true -> is_finite (fexp x) = true /\ (0 <= B2R (fexp x) <= 1)%R) ->
  In lam [2; 3; 4] ->
  exists v, part_scaling_fn_fp fexp (fdiv (fint 1) (fint lam)) (fint 1) 300 (fint lam) = Ok v /\
    is_finite v = true /\ (0 <= B2R v)%R.
Proof. exact fp_small. Qed.
Print Assumptions C46_small_bases_finite.

Example C46_base_five_example : exists fexp fpow k,
  (forall x, is_nan x = false -> is_nan (fexp x) = false /\ Bsign (fexp x) = false) /\
  (forall x, flt (fint 710) x = true -> fexp x = finf) /\
  k_lam_fp fexp fpow 0 2 (fint 5) 300 = Ok k /\ is_nan (get2 k 1 1) = true.
Proof. exact fp_five_example. Qed.

Example C46_base_ten_example : exists fpow : f64 -> Z -> f64, fpow (fint 10) 1 = fint 10 /\ fpow (fint 10) 2 = fint 100.
Proof. exact fp_ten_example. Qed.

Example C46_small_bases_example : exists fexp : f64 -> f64, forall x, flt x (fint 0) = true ->
  is_finite (fexp x) = true /\ (0 <= B2R (fexp x) <= 1)%R.
Proof. exact fp_small_example. Qed.
