(** * The dilation 4 in binary64 *)

From Coq Require Import ZArith Reals List Bool.
From Flocq Require Import Core IEEE754.BinarySingleNaN.
From Verif Require Import Py ModelSamples ModelFloat ModelFloatJaxFilt SpecFp SpecFour.
From Verif Require Import FloatFourProps.
Import ListNotations.
Open Scope Z_scope.

(** ** C91: at lam = 4 nothing ever overflows, whatever the band-limit *)
Theorem C91_generating_function_never_raises : forall fexp fpow J L, 0 <= L <= 2 ^ 53 -> -1 <= J <= 25 -> powers_of_four fpow J ->
  exists k, k_lam_fp fexp fpow J L (fint 4) 300 = Ok k /\ rows k = J + 2 /\ cols k = L.
Proof. exact fp4_total. Qed.
Print Assumptions C91_generating_function_never_raises.

(** every entry is finite and not negative *)
Theorem C91_entries : forall fexp fpow J L k j l, L <= 2 ^ 53 -> J <= 25 -> accurate_exp fexp -> powers_of_four fpow J ->
  k_lam_fp fexp fpow J L (fint 4) 300 = Ok k -> 0 <= j <= J + 1 -> 0 <= l < L ->
  is_finite (get2 k j l) = true /\ (0 <= B2R (get2 k j l))%R.
Proof. exact fp4_entries. Qed.
Print Assumptions C91_entries.

(** the filter constructions return *)
Theorem C91_filters_never_raise : forall fexp fpow J L J_min, 0 <= L <= 2 ^ 53 -> 0 <= J_min < J -> J <= 25 -> powers_of_four fpow J ->
  (exists psi phi, filters_axisym_fp fexp fpow J L J_min (fint 4) = Ok (psi, phi)) /\
  (exists psi phi, filters_axisym_vectorised_fp fexp fpow J L J_min (fint 4) = Ok (psi, phi)) /\
  (exists psi phi, filters_axisym_jax_fp fexp fpow J L J_min (fint 4) = Ok (psi, phi)).
Proof. exact fp4_filters_total. Qed.
Print Assumptions C91_filters_never_raise.

(** every value of the vectorised and JAX filters is finite *)
Theorem C91_filters_finite : forall fexp fpow J L J_min psi phi, L <= 2 ^ 53 -> J <= 25 -> accurate_exp fexp -> powers_of_four fpow J ->
  filters_axisym_vectorised_fp fexp fpow J L J_min (fint 4) = Ok (psi, phi) \/
  filters_axisym_jax_fp fexp fpow J L J_min (fint 4) = Ok (psi, phi) ->
  forall j l, 0 <= j <= J -> 0 <= l < L -> is_finite (get2 psi j l) = true /\ is_finite (get1 phi l) = true.
Proof. exact fp4_finite. Qed.
Print Assumptions C91_filters_finite.

(** and so is every value of the looped filters *)
Theorem C91_looped_filters_finite : forall fexp fpow J L J_min psi phi, L <= 2 ^ 53 -> J <= 25 -> accurate_exp fexp -> powers_of_four fpow J ->
  filters_axisym_fp fexp fpow J L J_min (fint 4) = Ok (psi, phi) ->
  forall j l, 0 <= j <= J -> 0 <= l < L -> is_finite (get2 psi j l) = true /\ is_finite (get1 phi l) = true.
Proof. exact fp4_loop_finite. Qed.
Print Assumptions C91_looped_filters_finite.

(** L = 1000 (J = 5): the library returns filters, all of whose values are finite *)
Example C91_example : exists fexp fpow psi phi, accurate_exp fexp /\ powers_of_four fpow 5 /\
  filters_axisym_vectorised_fp fexp fpow 5 1000 0 (fint 4) = Ok (psi, phi) /\ is_finite (get2 psi 4 794) = true /\ is_finite (get1 phi 1) = true.
Proof. exact ex_c91. Qed.
