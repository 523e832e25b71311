(** Statements and proofs for PropertiesFloatDilation.v *)

From Coq Require Import ZArith Reals List Bool Lia Lra.
From Flocq Require Import Core IEEE754.BinarySingleNaN.
From Verif Require Import Py PyFacts ModelSamples SamplesProps ModelFilters Spec.
From Verif Require Import ModelFloat ModelFloatDir ModelFloatTrans ModelFloatJax ModelFloatJaxFilt FloatProps SpecFp FloatFilterProps FloatDefault FloatAccProps FloatJaxFiltProps.
From Verif Require Import FloatFacts.
Import ListNotations.
Open Scope Z_scope.

(*T Dilations in binary64 *)
(*! From Coq Require Import ZArith Reals List Bool. *)
(*! From Flocq Require Import Core IEEE754.BinarySingleNaN. *)
(*! From Verif Require Import Py ModelFloat ModelFloatDir ModelFloatTrans ModelFloatJax ModelFloatJaxFilt SpecFp. *)

Lemma flt_lit x y x' y' : is_finite x = true -> is_finite y = true -> is_finite x' = true -> is_finite y' = true ->
  ((B2R x < B2R y)%R <-> (B2R x' < B2R y')%R) -> flt x y = flt x' y'.
Proof.
  intros F1 F2 F3 F4 H. destruct (flt x' y') eqn:E.
  - apply flt_iff in E; auto. apply flt_true; auto. tauto.
  - apply flt_false_inv in E; auto. apply flt_false; auto. apply Rnot_lt_le. intros G. apply H in G. lra.
Qed.

Lemma entry_dilated fexp fpow J J' c s j l l' : exact_powers fpow J -> exact_powers fpow J' ->
  0 <= j <= J + 1 -> 0 <= j + s <= J' + 1 -> 0 <= l <= 2 ^ 53 -> 0 <= l' <= 2 ^ 53 -> IZR l' = (bpow radix2 s * IZR l)%R ->
  k_entry_fp fexp fpow (j + s) l' (fint 2) 300 c = k_entry_fp fexp fpow j l (fint 2) 300 c.
Proof.
  intros H H' Hj Hj' Hl Hl' E.
  assert (A : forall i, bpow radix2 (i + s) = (bpow radix2 s * bpow radix2 i)%R) by (intros; rewrite bpow_plus; ring).
  pose proof (bpow_gt_0 radix2 s) as Ps.
  destruct (H j ltac:(lia)) as [Fp Ep]. destruct (H (j - 1) ltac:(lia)) as [Fq Eq].
  destruct (H' (j + s) ltac:(lia)) as [Fp' Ep']. destruct (H' (j + s - 1) ltac:(lia)) as [Fq' Eq'].
  destruct (fint_ok l ltac:(lia)) as [Fl El]. destruct (fint_ok l' ltac:(lia)) as [Fl' El'].
  replace (j + s - 1) with (j - 1 + s) in * by lia. rewrite A in Ep', Eq'.
  assert (S : forall x y, (bpow radix2 s * x < bpow radix2 s * y)%R <-> (x < y)%R).
  { intros x y. split; intros G; [apply Rmult_lt_reg_l in G; auto|now apply Rmult_lt_compat_l]. }
  unfold k_entry_fp. replace (j + s - 1) with (j - 1 + s) by lia.
  rewrite (flt_lit (fint l') (fpow (fint 2) (j - 1 + s)) (fint l) (fpow (fint 2) (j - 1))) by (auto; rewrite El, El', Eq, Eq', E; apply S).
  destruct (flt (fint l) _) eqn:E1; [reflexivity|].
  rewrite (flt_lit (fpow (fint 2) (j + s)) (fint l') (fpow (fint 2) j) (fint l)) by (auto; rewrite El, El', Ep, Ep', E; apply S).
  destruct (flt (fpow _ j) _) eqn:E2; [reflexivity|].
  apply flt_false_inv in E1; auto. apply flt_false_inv in E2; auto. rewrite El, Eq in E1. rewrite El, Ep in E2.
  destruct (frac fpow J j l H ltac:(lia) Hl (conj E1 E2)) as (a & -> & Fa & Ra & Ba).
  destruct (frac fpow J' (j + s) l' H' ltac:(lia) Hl') as (a' & -> & Fa' & Ra' & Ba').
  { replace (j + s - 1) with (j - 1 + s) by lia. rewrite !A, E. split; apply Rmult_le_compat_l; lra. }
  cbn [bind]. assert (a' = a) as ->; [|reflexivity].
  assert (SF : forall x : f64, is_finite x = true -> (/ 2 <= B2R x)%R -> is_finite_strict x = true).
  { intros x F B. destruct x; try discriminate F; try reflexivity. cbn [B2R] in B. lra. }
  apply B2R_inj; try (apply SF; tauto). rewrite Ra, Ra', A, E. field. pose proof (bpow_gt_0 radix2 j). split; lra.
Qed.

(*% ** C84 in binary64 with lam = 2: bit for bit *)

(*@ C84_binary64_generating_function *)
Lemma fp_gen_dilated : forall fexp fpow J J' L L' k k', L <= 2 ^ 53 -> L' <= 2 ^ 53 -> exact_powers fpow J -> exact_powers fpow J' ->
  k_lam_fp fexp fpow J L (fint 2) 300 = Ok k -> k_lam_fp fexp fpow J' L' (fint 2) 300 = Ok k' ->
  forall s j l l', 0 <= j <= J + 1 -> 0 <= j + s <= J' + 1 -> 0 <= l < L -> 0 <= l' < L' ->
  IZR l' = (bpow radix2 s * IZR l)%R -> get2 k' (j + s) l' = get2 k j l.
Proof.
  intros fexp fpow J J' L L' k k' HL HL' H H' Ek Ek' s j l l' Hj Hj' Hl Hl' E.
  destruct (k_lam_fp_inv _ _ _ _ _ _ _ Ek) as (il & c & Ei & Ec & _ & _ & _ & _ & A).
  destruct (k_lam_fp_inv _ _ _ _ _ _ _ Ek') as (il' & c' & Ei' & Ec' & _ & _ & _ & _ & A').
  assert (il' = il) as -> by congruence. assert (c' = c) as -> by congruence.
  specialize (A j l ltac:(lia) Hl). specialize (A' (j + s) l' ltac:(lia) Hl').
  rewrite (entry_dilated fexp fpow J J' c s j l l') in A' by (auto; lia). congruence.
Qed.

(*@ C84_binary64_wavelet_filters *)
Lemma fp_wav_dilated : forall fexp fpow J J' L L' J_min J_min' psi phi psi' phi', L <= 2 ^ 53 -> L' <= 2 ^ 53 ->
  exact_powers fpow J -> exact_powers fpow J' ->
  filters_axisym_vectorised_fp fexp fpow J L J_min (fint 2) = Ok (psi, phi) \/ filters_axisym_jax_fp fexp fpow J L J_min (fint 2) = Ok (psi, phi) ->
  filters_axisym_vectorised_fp fexp fpow J' L' J_min' (fint 2) = Ok (psi', phi') \/ filters_axisym_jax_fp fexp fpow J' L' J_min' (fint 2) = Ok (psi', phi') ->
  forall s j l l', 0 <= j <= J -> 0 <= j + s <= J' -> 0 <= l < L -> 0 <= l' < L' ->
  IZR l' = (bpow radix2 s * IZR l)%R -> get2 psi' (j + s) l' = get2 psi j l.
Proof.
  intros fexp fpow J J' L L' J_min J_min' psi phi psi' phi' HL HL' H H' G G' s j l l' Hj Hj' Hl Hl' E.
  rewrite axi_jax in G, G'. assert (K : filters_axisym_vectorised_fp fexp fpow J L J_min (fint 2) = Ok (psi, phi)) by tauto.
  assert (K' : filters_axisym_vectorised_fp fexp fpow J' L' J_min' (fint 2) = Ok (psi', phi')) by tauto.
  destruct (vec_fp_inv _ _ _ _ _ _ _ _ K) as (_ & k & Ek & _ & _ & _ & A & _).
  destruct (vec_fp_inv _ _ _ _ _ _ _ _ K') as (_ & k' & Ek' & _ & _ & _ & A' & _).
  rewrite A, A' by lia. replace (j + s + 1) with (j + 1 + s) by lia.
  now rewrite !(fp_gen_dilated fexp fpow J J' L L' k k' HL HL' H H' Ek Ek' s _ l l') by (auto; lia).
Qed.

(*@ C84_binary64_scaling_filter *)
Lemma fp_scal_dilated : forall fexp fpow J J' L L' J_min psi phi psi' phi' s, L <= 2 ^ 53 -> L' <= 2 ^ 53 ->
  exact_powers fpow J -> exact_powers fpow J' ->
  filters_axisym_vectorised_fp fexp fpow J L J_min (fint 2) = Ok (psi, phi) \/ filters_axisym_jax_fp fexp fpow J L J_min (fint 2) = Ok (psi, phi) ->
  filters_axisym_vectorised_fp fexp fpow J' L' (J_min + s) (fint 2) = Ok (psi', phi') \/ filters_axisym_jax_fp fexp fpow J' L' (J_min + s) (fint 2) = Ok (psi', phi') ->
  forall l l', 0 <= l < L -> 0 <= l' < L' ->
  IZR l' = (bpow radix2 s * IZR l)%R -> get1 phi' l' = get1 phi l.
Proof.
  intros fexp fpow J J' L L' J_min psi phi psi' phi' s HL HL' H H' G G' l l' Hl Hl' E.
  rewrite axi_jax in G, G'. assert (K : filters_axisym_vectorised_fp fexp fpow J L J_min (fint 2) = Ok (psi, phi)) by tauto.
  assert (K' : filters_axisym_vectorised_fp fexp fpow J' L' (J_min + s) (fint 2) = Ok (psi', phi')) by tauto.
  destruct (vec_fp_inv _ _ _ _ _ _ _ _ K) as (R & k & Ek & _ & _ & _ & _ & A).
  destruct (vec_fp_inv _ _ _ _ _ _ _ _ K') as (R' & k' & Ek' & _ & _ & _ & _ & A').
  rewrite A, A' by lia.
  now rewrite (fp_gen_dilated fexp fpow J J' L L' k k' HL HL' H H' Ek Ek' s _ l l') by (auto; lia).
Qed.

(*% degree 6 at scale 3 (L = 9, J = 4) against degree 3 at scale 2 (L = 5, J = 3) *)
(*@E C84_binary64_example *)
Lemma ex_c84_fp : exists fexp fpow psi phi psi' phi', accurate_exp fexp /\ exact_powers fpow 4 /\
  filters_axisym_vectorised_fp fexp fpow 3 5 1 (fint 2) = Ok (psi, phi) /\
  filters_axisym_vectorised_fp fexp fpow 4 9 2 (fint 2) = Ok (psi', phi') /\
  get2 psi' 3 6 = get2 psi 2 3 /\ get1 phi' 2 = get1 phi 1.
Proof.
  pose proof (pow2_exact_powers 4 ltac:(lia)) as HP'. pose proof (pow2_exact_powers 3 ltac:(lia)) as HP.
  destruct (fp2_filters_total grid_exp pow2 3 5 1) as (_ & (psi & phi & E)); auto; try lia.
  destruct (fp2_filters_total grid_exp pow2 4 9 2) as (_ & (psi' & phi' & E')); auto; try lia.
  exists grid_exp, pow2, psi, phi, psi', phi'. split; [apply grid_accurate|]. split; [exact HP'|]. split; [exact E|]. split; [exact E'|].
  assert (B : bpow radix2 1 = 2%R) by reflexivity. split.
  - apply (fp_wav_dilated grid_exp pow2 3 4 5 9 1 2 psi phi psi' phi' ltac:(lia) ltac:(lia) HP HP' (or_introl E) (or_introl E') 1 2 3 6); try lia. rewrite B. lra.
  - apply (fp_scal_dilated grid_exp pow2 3 4 5 9 1 psi phi psi' phi' 1 ltac:(lia) ltac:(lia) HP HP' (or_introl E) (or_introl E') 1 2); try lia. rewrite B. lra.
Qed.
