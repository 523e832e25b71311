(** * Dilations in binary64 *)

From Coq Require Import ZArith Reals List Bool.
From Flocq Require Import Core IEEE754.BinarySingleNaN.
From Verif Require Import Py ModelFloat ModelFloatDir ModelFloatTrans ModelFloatJax ModelFloatJaxFilt SpecFp.
From Verif Require Import FloatDilationProps.
Import ListNotations.
Open Scope Z_scope.

(** ** C84 in binary64 with lam = 2: bit for bit *)
Theorem C84_binary64_generating_function : forall fexp fpow J J' L L' k k', L <= 2 ^ 53 -> L' <= 2 ^ 53 -> exact_powers fpow J -> exact_powers fpow J' ->
  k_lam_fp fexp fpow J L (fint 2) 300 = Ok k -> k_lam_fp fexp fpow J' L' (fint 2) 300 = Ok k' ->
  forall s j l l', 0 <= j <= J + 1 -> 0 <= j + s <= J' + 1 -> 0 <= l < L -> 0 <= l' < L' ->
  IZR l' = (bpow radix2 s * IZR l)%R -> get2 k' (j + s) l' = get2 k j l.
Proof. exact fp_gen_dilated. Qed.
Print Assumptions C84_binary64_generating_function.

Theorem C84_binary64_wavelet_filters : forall fexp fpow J J' L L' J_min J_min' psi phi psi' phi', L <= 2 ^ 53 -> L' <= 2 ^ 53 ->
  exact_powers fpow J -> exact_powers fpow J' ->
  filters_axisym_vectorised_fp fexp fpow J L J_min (fint 2) = Ok (psi, phi) \/ filters_axisym_jax_fp fexp fpow J L J_min (fint 2) = Ok (psi, phi) ->
  filters_axisym_vectorised_fp fexp fpow J' L' J_min' (fint 2) = Ok (psi', phi') \/ filters_axisym_jax_fp fexp fpow J' L' J_min' (fint 2) = Ok (psi', phi') ->
  forall s j l l', 0 <= j <= J -> 0 <= j + s <= J' -> 0 <= l < L -> 0 <= l' < L' ->
  IZR l' = (bpow radix2 s * IZR l)%R -> get2 psi' (j + s) l' = get2 psi j l.
Proof. exact fp_wav_dilated. Qed.
Print Assumptions C84_binary64_wavelet_filters.

Theorem C84_binary64_scaling_filter : forall fexp fpow J J' L L' J_min psi phi psi' phi' s, L <= 2 ^ 53 -> L' <= 2 ^ 53 ->
  exact_powers fpow J -> exact_powers fpow J' ->
  filters_axisym_vectorised_fp fexp fpow J L J_min (fint 2) = Ok (psi, phi) \/ filters_axisym_jax_fp fexp fpow J L J_min (fint 2) = Ok (psi, phi) ->
  filters_axisym_vectorised_fp fexp fpow J' L' (J_min + s) (fint 2) = Ok (psi', phi') \/ filters_axisym_jax_fp fexp fpow J' L' (J_min + s) (fint 2) = Ok (psi', phi') ->
  forall l l', 0 <= l < L -> 0 <= l' < L' ->
  IZR l' = (bpow radix2 s * IZR l)%R -> get1 phi' l' = get1 phi l.
Proof. exact fp_scal_dilated. Qed.
Print Assumptions C84_binary64_scaling_filter.

(** degree 6 at scale 3 (L = 9, J = 4) against degree 3 at scale 2 (L = 5, J = 3) *)
Example C84_binary64_example : exists fexp fpow psi phi psi' phi', accurate_exp fexp /\ exact_powers fpow 4 /\
  filters_axisym_vectorised_fp fexp fpow 3 5 1 (fint 2) = Ok (psi, phi) /\
  filters_axisym_vectorised_fp fexp fpow 4 9 2 (fint 2) = Ok (psi', phi') /\
  get2 psi' 3 6 = get2 psi 2 3 /\ get1 phi' 2 = get1 phi 1.
Proof. exact ex_c84_fp. Qed.
