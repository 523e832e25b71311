(** * The dilation 3 in binary64 *)

From Coq Require Import ZArith Reals List Bool.
From Flocq Require Import Core IEEE754.BinarySingleNaN.
From Verif Require Import Py ModelSamples ModelFloat ModelFloatDir ModelFloatTrans ModelFloatJax ModelFloatJaxFilt SpecFp SpecThree.
From Verif Require Import FloatThreeProps.
Import ListNotations.
Open Scope Z_scope.

(** ** C89: at lam = 3 the generating function overflows from L = 795 on, and not before *)
Theorem C89_generating_function_never_raises : forall fexp fpow J L, 0 <= L <= 2 ^ 53 -> -1 <= J <= 32 -> powers_of_three fpow J ->
  exists k, k_lam_fp fexp fpow J L (fint 3) 300 = Ok k /\ rows k = J + 2 /\ cols k = L.
Proof. exact fp3_total. Qed.
Print Assumptions C89_generating_function_never_raises.

(** an entry is +inf exactly where the last point of the quadrature is computed beyond 1 *)
Theorem C89_entries : forall fexp fpow J L k j l, L <= 2 ^ 53 -> J <= 32 -> accurate_exp fexp -> overflowing_exp fexp -> powers_of_three fpow J ->
  k_lam_fp fexp fpow J L (fint 3) 300 = Ok k -> 0 <= j <= J + 1 -> 0 <= l < L ->
  (oversteps j l -> get2 k j l = finf) /\ (~ oversteps j l -> is_finite (get2 k j l) = true /\ (0 <= B2R (get2 k j l))%R).
Proof. exact fp3_entries. Qed.
Print Assumptions C89_entries.

(** it first happens at multipole 794, in the band of scale 7 *)
Theorem C89_first_overflow : oversteps 7 794 /\ forall j l, 0 <= j -> l < 794 -> ~ oversteps j l.
Proof. exact fp3_first. Qed.
Print Assumptions C89_first_overflow.

(** so the axisymmetric filters contain +inf from band-limit 795 on, in every implementation *)
Theorem C89_filters_infinite : forall fexp fpow J L J_min psi phi, 795 <= L <= 2 ^ 53 -> J <= 32 -> accurate_exp fexp -> overflowing_exp fexp -> powers_of_three fpow J ->
  filters_axisym_fp fexp fpow J L J_min (fint 3) = Ok (psi, phi) \/
  filters_axisym_vectorised_fp fexp fpow J L J_min (fint 3) = Ok (psi, phi) \/
  filters_axisym_jax_fp fexp fpow J L J_min (fint 3) = Ok (psi, phi) -> 6 <= J ->
  (J_min <= 6 -> get2 psi 6 794 = finf) /\ (J_min = 7 -> get1 phi 794 = finf).
Proof. exact fp3_infinite. Qed.
Print Assumptions C89_filters_infinite.

(** the vectorised directional filters then contain infinities or NaNs at every order *)
Theorem C89_directional : forall fexp fpow flg J L N J_min spin psi phi, 795 <= L <= 2 ^ 53 -> 6 <= J <= 32 -> J_min <= 6 -> Z.abs spin <= 794 ->
  accurate_exp fexp -> overflowing_exp fexp -> powers_of_three fpow J ->
  filters_directional_vectorised_fp fexp fpow flg J L N J_min (fint 3) spin 0 = Ok (psi, phi) ->
  forall i, 0 <= i < 2 * L - 1 -> is_finite (fst (get3 psi 6 794 i)) = false.
Proof. exact fp3_directional. Qed.
Print Assumptions C89_directional.

(** the filter constructions return *)
Theorem C89_filters_never_raise : forall fexp fpow J L J_min, 0 <= L <= 2 ^ 53 -> 0 <= J_min < J -> J <= 32 -> powers_of_three fpow J ->
  (exists psi phi, filters_axisym_fp fexp fpow J L J_min (fint 3) = Ok (psi, phi)) /\
  (exists psi phi, filters_axisym_vectorised_fp fexp fpow J L J_min (fint 3) = Ok (psi, phi)) /\
  (exists psi phi, filters_axisym_jax_fp fexp fpow J L J_min (fint 3) = Ok (psi, phi)).
Proof. exact fp3_filters_total. Qed.
Print Assumptions C89_filters_never_raise.

(** up to band-limit 794 every value of the vectorised and JAX filters is finite *)
Theorem C89_filters_finite : forall fexp fpow J L J_min psi phi, L <= 794 -> J <= 32 -> accurate_exp fexp -> overflowing_exp fexp -> powers_of_three fpow J ->
  filters_axisym_vectorised_fp fexp fpow J L J_min (fint 3) = Ok (psi, phi) \/
  filters_axisym_jax_fp fexp fpow J L J_min (fint 3) = Ok (psi, phi) ->
  forall j l, 0 <= j <= J -> 0 <= l < L -> is_finite (get2 psi j l) = true /\ is_finite (get1 phi l) = true.
Proof. exact fp3_finite. Qed.
Print Assumptions C89_filters_finite.

(** L = 1000 (J = 7): the library returns filters, and the wavelet of scale 6 is infinite at l = 794 *)
Example C89_example : exists fexp fpow psi phi, accurate_exp fexp /\ overflowing_exp fexp /\ powers_of_three fpow 7 /\
  filters_axisym_vectorised_fp fexp fpow 7 1000 0 (fint 3) = Ok (psi, phi) /\ get2 psi 6 794 = finf.
Proof. exact ex_c89. Qed.
