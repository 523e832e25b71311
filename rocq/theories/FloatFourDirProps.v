(** Statements and proofs for PropertiesFloatFourDir.v *)

From Coq Require Import ZArith Reals List Bool Lia Lra Psatz.
From Coquelicot Require Import Complex.
From Flocq Require Import Core Relative IEEE754.BinarySingleNaN.
From Verif Require Import Py PyFacts ModelSamples ModelFilters FiltersFacts.
From Verif Require Import ModelFloat ModelFloatDir ModelFloatJaxFilt SpecFp SpecFpDir SpecFpMany SpecFour Spec FiltersProps.
From Verif Require Import FloatDirFilterProps FloatManyProps FloatDirFacts FloatJaxFiltProps FloatJaxManyProps FloatFourProps FloatAccProps FloatDirProps FloatFilterProps.
From Verif Require Import FloatFacts FloatProps FloatDefault.
Import ListNotations.
Open Scope Z_scope.

(*T The directional filters with dilation 4 in binary64 *)
(*! From Coq Require Import ZArith Reals List Bool. *)
(*! From Flocq Require Import Core IEEE754.BinarySingleNaN. *)
(*! From Verif Require Import Py ModelSamples ModelFloat ModelFloatDir ModelFloatJaxFilt Spec SpecFp SpecFpDir SpecFpMany SpecFour. *)

(*% ** C91, continued: the directional filters *)
(*% they are returned unless the powers of two of the directional component overflow *)
(*@ C91_directional_filters_return *)
Lemma fp4_dir_total : forall fexp fpow flg J L N J_min spin spin0, 1 <= L <= 2 ^ 52 -> float_powers L N -> 0 <= J_min < J -> J <= 25 -> powers_of_four fpow J ->
  (exists r, filters_directional_fp fexp fpow flg J L N J_min (fint 4) spin spin0 = Ok r) /\
  (exists r, filters_directional_vectorised_fp fexp fpow flg J L N J_min (fint 4) spin 0 = Ok r).
Proof.
  intros fexp fpow flg J L N J_min spin spin0 HL HF HJ HJ25 HP.
  destruct (fp4_filters_total fexp fpow J L J_min ltac:(lia) HJ HJ25 HP) as ((p1 & f1 & E1) & (p2 & f2 & E2) & _).
  destruct (fp_dirf_return fexp fpow flg J L N J_min (fint 4) spin spin0 HL HF) as [A B].
  destruct (A _ E1) as (x & y & X & _). destruct (B _ E2) as (x' & y' & X' & _). eauto.
Qed.

(*@ C91_jax_directional_filters_return *)
Lemma fp4_jax_total : forall fexp fpow jlg jexp J L N J_min spin, accurate_loggamma_to 1023 jlg -> relative_exp_to (7093 / 10) jexp ->
  1 <= L <= 2 ^ 52 -> 1 <= N -> 0 <= J_min < J -> J <= 25 -> powers_of_four fpow J ->
  ((exists r, filters_directional_jax_fp fexp fpow jlg jexp J L N J_min (fint 4) spin 0 = Ok r) <-> int64_powers L N).
Proof.
  intros fexp fpow jlg jexp J L N J_min spin Hg He HL HN HJ HJ25 HP.
  destruct (fp4_filters_total fexp fpow J L J_min ltac:(lia) HJ HJ25 HP) as (_ & _ & (p & f & E)).
  rewrite (jax_returned fexp fpow jlg jexp J L N J_min (fint 4) spin Hg He) by lia. split; [now intros [_ H]|]. intros H. split; [eauto|exact H].
Qed.

(*% every coefficient of the looped and of the vectorised directional filters is finite *)
(*@ C91_directional_filters_finite *)
Lemma fp4_dir_finite : forall fexp fpow flg J L N J_min spin psi phi, 1 <= L <= 2 ^ 52 -> 1 <= N -> N <= 900 \/ L <= 900 -> J <= 25 ->
  accurate_loggamma_to 1023 flg -> relative_exp_to (7093 / 10) fexp -> accurate_exp fexp -> powers_of_four fpow J ->
  filters_directional_fp fexp fpow flg J L N J_min (fint 4) spin 0 = Ok (psi, phi) \/
  filters_directional_vectorised_fp fexp fpow flg J L N J_min (fint 4) spin 0 = Ok (psi, phi) ->
  forall l, Z.abs spin <= l < L ->
    is_finite (get1 phi l) = true /\
    forall j m, J_min <= j <= J -> Z.abs m < L -> is_finite (fst (get3 psi j l (L - 1 + m))) = true /\ is_finite (snd (get3 psi j l (L - 1 + m))) = true.
Proof.
  intros fexp fpow flg J L N J_min spin psi phi HL HN HS HJ25 Hg Hr Hf HP HD l Hl.
  destruct (fp_dir_many flg fexp L N Hg Hr ltac:(lia) HN ltac:(unfold float_powers; lia)) as (_ & s & _ & ES & _).
  assert (X : exists kpsi kphi, 0 <= J_min < J /\
    ((filters_axisym_fp fexp fpow J L J_min (fint 4) = Ok (kpsi, kphi) /\ filters_directional_fp fexp fpow flg J L N J_min (fint 4) spin 0 = Ok (psi, phi)) \/
     (filters_axisym_vectorised_fp fexp fpow J L J_min (fint 4) = Ok (kpsi, kphi) /\ filters_directional_vectorised_fp fexp fpow flg J L N J_min (fint 4) spin 0 = Ok (psi, phi))) /\
    forall j, 0 <= j <= J -> is_finite (get2 kpsi j l) = true /\ is_finite (get1 kphi l) = true).
  { destruct HD as [ED|ED]; pose proof ED as ED'.
    - unfold filters_directional_fp in ED'. apply bind_inv in ED' as (z1 & _ & ED'). apply bind_inv in ED' as (z3 & _ & ED').
      apply bind_inv in ED' as ([kpsi kphi] & EA & _). exists kpsi, kphi.
      split; [apply (axisym_fp_inv _ _ _ _ _ _ _ _ EA)|]. split; [left; split; assumption|]. intros j Hj.
      apply (fp4_loop_finite fexp fpow J L J_min kpsi kphi ltac:(lia) HJ25 Hf HP EA); lia.
    - unfold filters_directional_vectorised_fp in ED'. change (negb (0 =? 0)) with false in ED'. cbv iota in ED'.
      apply bind_inv in ED' as ([kpsi kphi] & EA & _). exists kpsi, kphi.
      split; [apply (axisym_vec_fp_inv _ _ _ _ _ _ _ _ EA)|]. split; [right; split; assumption|]. intros j Hj.
      apply (fp4_finite fexp fpow J L J_min kpsi kphi ltac:(lia) HJ25 Hf HP (or_introl EA)); lia. }
  destruct X as (kpsi & kphi & HJ & HB & HF).
  destruct (fp_dirf_acc_many fexp fpow flg J L N J_min (fint 4) spin kpsi kphi psi phi s Hg Hr HL HN HS HB ES l Hl) as [A B].
  split; [apply A, (HF 0); lia|]. intros j m Hj Hm. destruct (B j m Hj Hm) as (C & D & _); [apply HF; lia|]. split; assumption.
Qed.

(*% and of the JAX ones *)
(*@ C91_jax_directional_filters_finite *)
Lemma fp4_jax_finite : forall fexp fpow jlg jexp J L N J_min spin psi phi, 1 <= L <= 2 ^ 52 -> 1 <= N -> J <= 25 ->
  accurate_loggamma_to 1023 jlg -> relative_exp_to (7093 / 10) jexp -> accurate_exp fexp -> powers_of_four fpow J ->
  filters_directional_jax_fp fexp fpow jlg jexp J L N J_min (fint 4) spin 0 = Ok (psi, phi) ->
  forall l, Z.abs spin <= l < L ->
    is_finite (get1 phi l) = true /\
    forall j m, J_min <= j <= J -> Z.abs m < L -> is_finite (fst (get3 psi j l (L - 1 + m))) = true /\ is_finite (snd (get3 psi j l (L - 1 + m))) = true.
Proof.
  intros fexp fpow jlg jexp J L N J_min spin psi phi HL HN HJ25 Hg Hr Hf HP ED l Hl.
  destruct (proj1 (jax_returned fexp fpow jlg jexp J L N J_min (fint 4) spin Hg Hr ltac:(lia) HN) (ex_intro _ _ ED)) as [([kpsi kphi] & EA) H6].
  destruct (fp_dir_many jlg jexp L N Hg Hr ltac:(lia) HN (int64_float L N H6)) as (_ & s & _ & ES & _).
  pose proof EA as EV. rewrite axi_jax in EV. destruct (axisym_vec_fp_inv _ _ _ _ _ _ _ _ EV) as (HJ & _).
  assert (HF : forall j, 0 <= j <= J -> is_finite (get2 kpsi j l) = true /\ is_finite (get1 kphi l) = true).
  { intros j Hj. apply (fp4_finite fexp fpow J L J_min kpsi kphi ltac:(lia) HJ25 Hf HP (or_introl EV)); lia. }
  destruct (jax_acc_many fexp fpow jlg jexp J L N J_min (fint 4) spin kpsi kphi psi phi s Hg Hr HL HN EA ED ES l Hl) as [A B].
  split; [apply A, (HF 0); lia|]. intros j m Hj Hm. destruct (B j m Hj Hm) as (C & D & _); [apply HF; lia|]. split; assumption.
Qed.

(*% no energy is lost: the squares of the vectorised and JAX axisymmetric filters sum to at least 1 - 2^-51 at every degree, *)
(*% and to more than 1 + 2^-51 only where the quadrature exceeds its normalisation *)
(*@ C91_energy *)
Lemma fp4_energy : forall fexp fpow J L J_min psi phi k l, L <= 2 ^ 53 -> J <= 25 -> L <= 4 ^ J -> accurate_exp fexp -> powers_of_four fpow J ->
  increasing_powers fpow (fint 4) J ->
  filters_axisym_vectorised_fp fexp fpow J L J_min (fint 4) = Ok (psi, phi) \/
  filters_axisym_jax_fp fexp fpow J L J_min (fint 4) = Ok (psi, phi) ->
  k_lam_fp fexp fpow J L (fint 4) 300 = Ok k -> 0 <= l < L ->
  (1 - bpow radix2 (-51) <= fp_total psi phi J_min J l)%R /\
  ((1 + bpow radix2 (-51) < fp_total psi phi J_min J l)%R -> exists j, J_min <= j <= J /\ (1 < B2R (get2 k j l))%R).
Proof.
  intros fexp fpow J L J_min psi phi k l HL HJ HLJ HE HP HI HF Ek Hl. rewrite axi_jax in HF.
  assert (EV : filters_axisym_vectorised_fp fexp fpow J L J_min (fint 4) = Ok (psi, phi)) by tauto.
  destruct (axisym_vec_fp_inv _ _ _ _ _ _ _ _ EV) as (HJm & _).
  assert (HN : normalised fexp (fint 4)).
  { destruct (norm4 fexp HE) as (c & Ec & [Fc Bc] & Lc). exists c4, c. split; [apply il_is_fourth|]. split; [exact Ec|].
    apply flt_true; [reflexivity|exact Fc|]. rewrite (fint_B2R 0) by lia. lra. }
  assert (HLp : (IZR L <= B2R (fpow (fint 4) J))%R).
  { rewrite (proj2 HP) by lia. destruct (four_le J ltac:(lia)) as [? _]. rewrite fint_B2R by lia. now apply IZR_le. }
  pose proof (bpow_gt_0 radix2 (-51)) as B0. change (bpow radix2 (-51)) with (/ 2251799813685248)%R in *.
  destruct (fp_excess fexp fpow J L J_min (fint 4) psi phi k l HL HI HLp HN EV Ek Hl) as [[_ A]|(j & Hj & H1 & A)].
  - intros j Hj. apply (fp4_entries fexp fpow J L k j l); auto; lia.
  - change (bpow radix2 (-51)) with (/ 2251799813685248)%R in A. apply Rabs_le_inv in A. split; [lra|]. intros H. lra.
  - change (bpow radix2 (-51)) with (/ 2251799813685248)%R in A. apply Rabs_le_inv in A. split; [nra|]. intros _. eauto.
Qed.

(*% nor by the vectorised directional filters, up to 2^-29, from degree max(1, |spin|) on *)
(*@ C91_directional_energy *)
Lemma fp4_dir_energy : forall fexp fpow flg J L N J_min spin psi phi, 1 <= L <= 2 ^ 52 -> 1 <= N -> N <= 900 \/ L <= 900 -> J <= 25 -> L <= 4 ^ J ->
  accurate_loggamma_to 1023 flg -> relative_exp_to (7093 / 10) fexp -> accurate_exp fexp -> powers_of_four fpow J -> increasing_powers fpow (fint 4) J ->
  filters_directional_vectorised_fp fexp fpow flg J L N J_min (fint 4) spin 0 = Ok (psi, phi) ->
  forall l, 1 <= l -> Z.abs spin <= l < L -> (1 - bpow radix2 (-29) <= fp_dir_total L psi phi J_min J l)%R.
Proof.
  intros fexp fpow flg J L N J_min spin psi phi HL HN HS HJ HLJ Hg Hr Hf HP HI ED l Hl1 Hl. pose proof ED as ED'.
  unfold filters_directional_vectorised_fp in ED'. change (negb (0 =? 0)) with false in ED'. cbv iota in ED'.
  apply bind_inv in ED' as ([kpsi kphi] & EA & _). destruct (axisym_vec_fp_inv _ _ _ _ _ _ _ _ EA) as (HJm & _).
  destruct (fp4_total fexp fpow J L ltac:(lia) ltac:(lia) HP) as (k & Ek & _).
  destruct (fp4_energy fexp fpow J L J_min kpsi kphi k l ltac:(lia) HJ HLJ Hf HP HI (or_introl EA) Ek ltac:(lia)) as [T _].
  assert (HF : forall j, 0 <= j <= J -> is_finite (get2 kpsi j l) = true /\ is_finite (get1 kphi l) = true).
  { intros j Hj. apply (fp4_finite fexp fpow J L J_min kpsi kphi ltac:(lia) HJ Hf HP (or_introl EA)); lia. }
  assert (A : apx (2 * ue) (fp_dir_total L psi phi J_min J l) (fp_total kpsi kphi J_min J l)).
  { apply (total_many fexp fpow flg Hg Hr J L N J_min (fint 4) spin HL HN HS kpsi kphi psi phi l (or_intror (conj EA ED)) Hl); [apply (HF 0); lia|intros; apply HF; lia|left; lia]. }
  destruct A as (_ & A & _). pose proof (exp_ineq1_le (- (2 * ue))) as X.
  assert (U : (2 * ue <= / 1073741824)%R) by (unfold ue, ud, u1, eps; change (bpow radix2 (-31)) with (/ 2147483648)%R; lra).
  change (bpow radix2 (-51)) with (/ 2251799813685248)%R in T. change (bpow radix2 (-29)) with (/ 536870912)%R.
  eapply Rle_trans; [|exact A]. apply Rle_trans with ((1 - / 2251799813685248) * (1 - / 1073741824))%R; [lra|apply Rmult_le_compat; lra].
Qed.

(*% L = 1000 (J = 5), N = 63, spin 2: filters are returned, and their coefficients at l = 794 are finite *)
(*@E C91_directional_example *)
Lemma ex_c91_dir : exists fexp fpow flg psi phi, accurate_loggamma_to 1023 flg /\ relative_exp_to (7093 / 10) fexp /\ accurate_exp fexp /\ powers_of_four fpow 5 /\
  filters_directional_vectorised_fp fexp fpow flg 5 1000 63 0 (fint 4) 2 0 = Ok (psi, phi) /\
  is_finite (get1 phi 2) = true /\ is_finite (fst (get3 psi 4 794 (1000 - 1 + 30))) = true /\
  exists jpsi jphi, filters_directional_jax_fp fexp fpow flg fexp 5 1000 63 0 (fint 4) 2 0 = Ok (jpsi, jphi) /\ is_finite (fst (get3 jpsi 4 794 (1000 - 1 + 30))) = true.
Proof.
  pose proof (pow4_ok 5) as HP. pose proof near_loggamma_many as Hg. pose proof near_relative_many as Hr. pose proof near_accurate as Hf.
  destruct (fp4_dir_total near_exp pow4 near_lg 5 1000 63 0 2 0 ltac:(lia) ltac:(left; lia) ltac:(lia) ltac:(lia) HP) as [_ ([psi phi] & E)].
  assert (H6 : int64_powers 1000 63) by (left; lia).
  destruct (proj2 (fp4_jax_total near_exp pow4 near_lg near_exp 5 1000 63 0 2 Hg Hr ltac:(lia) ltac:(lia) ltac:(lia) ltac:(lia) HP) H6) as ([jpsi jphi] & E').
  pose proof (fp4_dir_finite near_exp pow4 near_lg 5 1000 63 0 2 psi phi ltac:(lia) ltac:(lia) ltac:(lia) ltac:(lia) Hg Hr Hf HP (or_intror E)) as F.
  pose proof (fp4_jax_finite near_exp pow4 near_lg near_exp 5 1000 63 0 2 jpsi jphi ltac:(lia) ltac:(lia) ltac:(lia) Hg Hr Hf HP E') as F'.
  exists near_exp, pow4, near_lg, psi, phi. split; [exact Hg|]. split; [exact Hr|]. split; [exact Hf|]. split; [exact HP|]. split; [exact E|].
  split; [apply (F 2); lia|]. split; [apply (proj2 (F 794 ltac:(lia)) 4 30); lia|].
  exists jpsi, jphi. split; [exact E'|]. apply (proj2 (F' 794 ltac:(lia)) 4 30); lia.
Qed.

(*% L = 1000 (J = 5), for the directional filters also N = 63, spin 2: the hypotheses of the energy bounds hold *)
(*@E C91_energy_example *)
Lemma ex_c91_energy : exists fexp fpow psi phi, accurate_exp fexp /\ powers_of_four fpow 5 /\ increasing_powers fpow (fint 4) 5 /\
  filters_axisym_vectorised_fp fexp fpow 5 1000 0 (fint 4) = Ok (psi, phi) /\ (1 - bpow radix2 (-51) <= fp_total psi phi 0 5 794)%R /\
  exists flg dpsi dphi, accurate_loggamma_to 1023 flg /\ relative_exp_to (7093 / 10) fexp /\
    filters_directional_vectorised_fp fexp fpow flg 5 1000 63 0 (fint 4) 2 0 = Ok (dpsi, dphi) /\ (1 - bpow radix2 (-29) <= fp_dir_total 1000 dpsi dphi 0 5 794)%R.
Proof.
  pose proof (pow4_ok 5) as HP. pose proof near_accurate as Hf.
  assert (HI : increasing_powers pow4 (fint 4) 5).
  { assert (V : forall j, 0 <= j <= 6 -> is_finite (pow4 (fint 4) j) = true /\ B2R (pow4 (fint 4) j) = IZR (4 ^ j)).
    { intros j Hj. rewrite (proj2 HP) by lia. destruct (four_le j ltac:(lia)) as [? _]. apply fint_ok. lia. }
    assert (V1 : is_finite (pow4 (fint 4) (-1)) = true /\ B2R (pow4 (fint 4) (-1)) = (/ 4)%R) by apply c4_val.
    split; [|split; [|split]].
    - intros j Hj. destruct (Z.eq_dec j (-1)) as [->|]; [apply V1|apply V; lia].
    - rewrite (proj2 V1). lra.
    - now rewrite (proj2 (V 0 ltac:(lia))).
    - intros j Hj. destruct (Z.eq_dec j (-1)) as [->|].
      + change (-1 + 1) with 0. rewrite (proj2 V1), (proj2 (V 0 ltac:(lia))). change (4 ^ 0) with 1. lra.
      + rewrite (proj2 (V j ltac:(lia))), (proj2 (V (j + 1) ltac:(lia))). apply IZR_lt, Z.pow_lt_mono_r; lia. }
  destruct (fp4_filters_total near_exp pow4 5 1000 0 ltac:(lia) ltac:(lia) ltac:(lia) HP) as (_ & (psi & phi & E) & _).
  destruct (fp4_total near_exp pow4 5 1000 ltac:(lia) ltac:(lia) HP) as (k & Ek & _).
  exists near_exp, pow4, psi, phi. split; [exact Hf|]. split; [exact HP|]. split; [exact HI|]. split; [exact E|].
  assert (H4 : 1000 <= 4 ^ 5) by (vm_compute; discriminate).
  split; [refine (proj1 (fp4_energy near_exp pow4 5 1000 0 psi phi k 794 _ _ H4 Hf HP HI (or_introl E) Ek _)); lia|].
  pose proof near_loggamma_many as Hg. pose proof near_relative_many as Hr.
  destruct (fp4_dir_total near_exp pow4 near_lg 5 1000 63 0 2 0 ltac:(lia) ltac:(left; lia) ltac:(lia) ltac:(lia) HP) as [_ ([dpsi dphi] & ED)].
  exists near_lg, dpsi, dphi. split; [exact Hg|]. split; [exact Hr|]. split; [exact ED|].
  apply (fp4_dir_energy near_exp pow4 near_lg 5 1000 63 0 2 dpsi dphi ltac:(lia) ltac:(lia) ltac:(lia) ltac:(lia) H4 Hg Hr Hf HP HI ED); lia.
Qed.
