(** * The default dilation lam = 2 in binary64 *)

From Coq Require Import ZArith Reals List Bool.
From Flocq Require Import Core IEEE754.BinarySingleNaN.
Import ListNotations.
From Verif Require Import Py ModelSamples ModelFilters ModelFloat Spec SpecQuad SpecFp.
From Verif Require Import FloatAccProps.
Import ListNotations.
Open Scope Z_scope.

(** ** C63: with lam = 2 no division by zero occurs, whatever the exponential returns *)
Theorem C63_generating_function_never_raises : forall fexp fpow J L, 0 <= L <= 2 ^ 53 -> -1 <= J -> exact_powers fpow J ->
  exists k, k_lam_fp fexp fpow J L (fint 2) 300 = Ok k /\ rows k = J + 2 /\ cols k = L.
Proof. exact fp2_total. Qed.
Print Assumptions C63_generating_function_never_raises.

(** the loop over the multipoles never reads temp before it is set *)
Theorem C63_filters_never_raise : forall fexp fpow J L J_min, 0 <= L <= 2 ^ 53 -> 0 <= J_min < J -> exact_powers fpow J ->
  (exists psi phi, filters_axisym_fp fexp fpow J L J_min (fint 2) = Ok (psi, phi)) /\
  (exists psi phi, filters_axisym_vectorised_fp fexp fpow J L J_min (fint 2) = Ok (psi, phi)).
Proof. exact fp2_filters_total. Qed.
Print Assumptions C63_filters_never_raise.

(** ** C64: with lam = 2 the rounding errors stay below 2^-33 *)
(** the computed generating function against the one of exact arithmetic *)
Theorem C64_generating_function_rounding : forall fexp fpow J L k r, 1 <= L <= 2 ^ 53 ->
  accurate_exp fexp -> exact_powers fpow J -> j_max L 2 = Ok J ->
  k_lam_fp fexp fpow J L (fint 2) 300 = Ok k -> k_lam L 2 300 = Ok r ->
  forall j l, 0 <= j <= J + 1 -> 0 <= l < L ->
    is_finite (get2 k j l) = true /\ (0 <= B2R (get2 k j l))%R /\
    (Rabs (B2R (get2 k j l) - get2 r j l) <= bpow radix2 (-35))%R.
Proof. exact fp2_k. Qed.
Print Assumptions C64_generating_function_rounding.

(** and against the documented integrals *)
Theorem C64_generating_function_accuracy : forall fexp fpow J L k, 1 <= L <= 2 ^ 53 ->
  accurate_exp fexp -> exact_powers fpow J -> j_max L 2 = Ok J ->
  k_lam_fp fexp fpow J L (fint 2) 300 = Ok k ->
  forall j l, 0 <= j <= J + 1 -> 0 <= l < L ->
    (Rabs (B2R (get2 k j l) - generating 2 (IZR l / powerRZ 2 j)) <= quad_error 2 300 + bpow radix2 (-35))%R.
Proof. exact fp2_gen. Qed.
Print Assumptions C64_generating_function_accuracy.

(** the squares of the computed filters against those of exact arithmetic *)
Theorem C64_vectorised_filters_rounding : forall fexp fpow J L J_min psi phi rpsi rphi, 1 <= L <= 2 ^ 53 ->
  accurate_exp fexp -> exact_powers fpow J -> j_max L 2 = Ok J ->
  filters_axisym_vectorised_fp fexp fpow J L J_min (fint 2) = Ok (psi, phi) ->
  filters_axisym_vectorised L J_min 2 = Ok (rpsi, rphi) ->
  forall l, 0 <= l < L ->
    (Rabs (B2R (get1 phi l) ^ 2 - get1 rphi l ^ 2) <= bpow radix2 (-35))%R /\
    forall j, 0 <= j <= J -> (Rabs (B2R (get2 psi j l) ^ 2 - get2 rpsi j l ^ 2) <= bpow radix2 (-34))%R.
Proof. exact fp2_vec. Qed.
Print Assumptions C64_vectorised_filters_rounding.

(** and against the documented integrals *)
Theorem C64_vectorised_filters_accuracy : forall fexp fpow J L J_min psi phi, 1 <= L <= 2 ^ 53 ->
  accurate_exp fexp -> exact_powers fpow J -> j_max L 2 = Ok J ->
  filters_axisym_vectorised_fp fexp fpow J L J_min (fint 2) = Ok (psi, phi) ->
  forall l, 0 <= l < L ->
    (Rabs (B2R (get1 phi l) ^ 2 - generating 2 (IZR l / powerRZ 2 J_min)) <= quad_error 2 300 + bpow radix2 (-35))%R /\
    forall j, 0 <= j <= J ->
      (Rabs (B2R (get2 psi j l) ^ 2 - (generating 2 (IZR l / powerRZ 2 (j + 1)) - generating 2 (IZR l / powerRZ 2 j)))
       <= 2 * quad_error 2 300 + bpow radix2 (-34))%R.
Proof. exact fp2_vec_gen. Qed.
Print Assumptions C64_vectorised_filters_accuracy.

Theorem C64_looped_filters_accuracy : forall fexp fpow J L J_min psi phi, 1 <= L <= 2 ^ 53 ->
  accurate_exp fexp -> exact_powers fpow J -> j_max L 2 = Ok J ->
  filters_axisym_fp fexp fpow J L J_min (fint 2) = Ok (psi, phi) ->
  forall l, 0 <= l < L ->
    (Rabs (B2R (get1 phi l) ^ 2 - generating 2 (IZR l / powerRZ 2 J_min)) <= quad_error 2 300 + bpow radix2 (-35))%R /\
    forall j, J_min <= j <= J ->
      (Rabs (B2R (get2 psi j l) ^ 2 - (generating 2 (IZR l / powerRZ 2 (j + 1)) - generating 2 (IZR l / powerRZ 2 j)))
       <= 2 * quad_error 2 300 + bpow radix2 (-33))%R.
Proof. exact fp2_loop_gen. Qed.
Print Assumptions C64_looped_filters_accuracy.

(** the squares of the computed filters sum to 1 up to the quadrature and rounding errors *)
Theorem C64_vectorised_filters_admissible : forall fexp fpow J L J_min psi phi, 1 <= L <= 2 ^ 53 ->
  accurate_exp fexp -> exact_powers fpow J -> j_max L 2 = Ok J ->
  filters_axisym_vectorised_fp fexp fpow J L J_min (fint 2) = Ok (psi, phi) ->
  forall l, 0 <= l < L ->
    (1 - bpow radix2 (-51) <= fp_total psi phi J_min J l <= 1 + quad_error 2 300 + bpow radix2 (-34))%R.
Proof. exact fp2_adm. Qed.
Print Assumptions C64_vectorised_filters_admissible.

Theorem C64_looped_filters_admissible : forall fexp fpow J L J_min psi phi, 1 <= L <= 2 ^ 53 ->
  accurate_exp fexp -> exact_powers fpow J -> j_max L 2 = Ok J ->
  filters_axisym_fp fexp fpow J L J_min (fint 2) = Ok (psi, phi) ->
  forall l, 0 <= l < L ->
    (1 - bpow radix2 (-51) <= fp_total psi phi J_min J l <= 1 + 3 * quad_error 2 300 + bpow radix2 (-32))%R.
Proof. exact fp2_adm_loop. Qed.
Print Assumptions C64_looped_filters_admissible.

(** where the exact filter is above the rounding error, the looped filters have only rounding error too *)
Theorem C64_looped_filters_rounding : forall fexp fpow J L J_min psi phi rpsi rphi, 1 <= L <= 2 ^ 53 ->
  accurate_exp fexp -> exact_powers fpow J -> j_max L 2 = Ok J ->
  filters_axisym_fp fexp fpow J L J_min (fint 2) = Ok (psi, phi) ->
  filters_axisym L J_min 2 = Ok (rpsi, rphi) ->
  forall l, 0 <= l < L ->
    (Rabs (B2R (get1 phi l) ^ 2 - get1 rphi l ^ 2) <= bpow radix2 (-35))%R /\
    forall j vpsi vphi, J_min <= j <= J -> filters_axisym_vectorised L J_min 2 = Ok (vpsi, vphi) ->
      (bpow radix2 (-34) < get2 vpsi j l ^ 2)%R ->
      (Rabs (B2R (get2 psi j l) ^ 2 - get2 rpsi j l ^ 2) <= bpow radix2 (-34))%R.
Proof. exact fp2_loop. Qed.
Print Assumptions C64_looped_filters_rounding.

(** lam = 2, L = 5, J = 3: an exponential and powers meet the hypotheses, both implementations return filters, *)
(** and the scaling function is 1 at l = 0 *)
Example C63_example : exists fexp fpow psi phi, exact_powers fpow 3 /\ j_max 5 2 = Ok 3 /\
  filters_axisym_fp fexp fpow 3 5 0 (fint 2) = Ok (psi, phi) /\ feq (get1 phi 0) (fint 1) = true.
Proof. exact ex_total. Qed.

Example C64_example : exists fexp fpow k psi phi, accurate_exp fexp /\ exact_powers fpow 3 /\ j_max 5 2 = Ok 3 /\
  k_lam_fp fexp fpow 3 5 (fint 2) 300 = Ok k /\ filters_axisym_fp fexp fpow 3 5 0 (fint 2) = Ok (psi, phi) /\
  (Rabs (B2R (get2 k 2 3) - generating 2 (3 / 4)) <= 1 / 100)%R /\ (0 < generating 2 (3 / 4) < 1)%R.
Proof. exact ex_acc. Qed.
