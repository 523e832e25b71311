(** Statements and proofs for PropertiesFloatThreeDir.v *)

From Coq Require Import ZArith Reals List Bool Lia Lra Psatz.
From Coquelicot Require Import Complex.
From Flocq Require Import Core Relative IEEE754.BinarySingleNaN.
From Verif Require Import Py PyFacts ModelSamples ModelFilters FiltersFacts.
From Verif Require Import ModelFloat ModelFloatDir ModelFloatJaxFilt SpecFp SpecFpDir SpecFpMany SpecThree Spec FiltersProps.
From Verif Require Import FloatDirFilterProps FloatManyProps FloatJaxFiltProps FloatJaxManyProps FloatThreeProps FloatAccProps FloatDirProps FloatThreeTransProps FloatFilterProps.
From Verif Require Import FloatFacts FloatProps FloatDefault FloatAccProps.
Import ListNotations.
Open Scope Z_scope.

(*T The directional filters with dilation 3 in binary64 *)
(*! From Coq Require Import ZArith Reals List Bool. *)
(*! From Flocq Require Import Core IEEE754.BinarySingleNaN. *)
(*! From Verif Require Import Py ModelSamples ModelFloat ModelFloatDir ModelFloatJaxFilt Spec SpecFp SpecFpDir SpecFpMany SpecThree. *)

(*% ** C89, continued: up to band-limit 794 the looped filters are finite, too *)
(*@ C89_looped_filters_finite *)
Lemma fp3_loop_finite : forall fexp fpow J L J_min psi phi, L <= 794 -> J <= 32 -> accurate_exp fexp -> overflowing_exp fexp -> powers_of_three fpow J ->
  filters_axisym_fp fexp fpow J L J_min (fint 3) = Ok (psi, phi) ->
  forall j l, 0 <= j <= J -> 0 <= l < L -> is_finite (get2 psi j l) = true /\ is_finite (get1 phi l) = true.
Proof.
  intros fexp fpow J L J_min psi phi HL HJ HE HO HP HF j l Hj Hl.
  destruct (loop_fp_inv _ _ _ _ _ _ _ _ HF) as (R & k & Ek & _ & _ & _ & _ & _ & B).
  assert (K : forall i m, 0 <= i <= J + 1 -> 0 <= m < L -> fb (4800 * 16384) (get2 k i m)).
  { intros i m Hi Hm. apply (kfb fexp fpow J L k i m); auto; try lia. apply fp3_first; lia. }
  destruct (k_lam_fp_inv _ _ _ _ _ _ _ Ek) as (il & c & _ & _ & _ & _ & Rk & Ck & _).
  split; [|rewrite B by lia; destruct (K J_min l ltac:(lia) Hl) as [F0 B0]; apply fsqrt_ok; [exact F0|lra]].
  assert (G : (J <=? J_min) || (J_min <? 0) = false) by (apply orb_false_iff; split; [apply Z.leb_gt|apply Z.ltb_ge]; lia).
  unfold filters_axisym_fp in HF. rewrite G, Ek in HF. cbn [bind] in HF. rewrite zeros2_ok, zeros1_ok in HF by lia. cbn [bind] in HF.
  apply bind_inv in HF as (phi' & _ & HF). apply bind_inv in HF as ([[psi' p] t] & HF & E). apply Ok_inj in E. apply (f_equal fst) in E. cbn [fst] in E. subst psi'.
  set (P := fun (_ : Z) (st : arr2 f64 * f64 * option f64) => rows (fst (fst st)) = J + 1 /\ cols (fst (fst st)) = L /\
    is_finite (snd (fst st)) = true /\ (forall x, snd st = Some x -> is_finite x = true) /\
    forall i m, 0 <= i <= J -> 0 <= m < L -> is_finite (get2 (fst (fst st)) i m) = true).
  apply (for_inv P) in HF; [now apply HF|lia| |].
  { unfold P. cbn [fst snd rows cols mk2].
    split; [reflexivity|]. split; [reflexivity|]. split; [reflexivity|]. split; [intros x X; inversion X|].
    intros i m Hi Hm. rewrite get2_mk by lia. reflexivity. }
  intros i st st' Hi HS HF'. apply (for_inv P) in HF'; [exact HF'|lia|exact HS|]. clear st st' HS HF'.
  intros m [[a q] u] st' Hm (A1 & A2 & A3 & A4 & A5) HF'. cbn [fst snd] in A1, A2, A3, A4, A5.
  rewrite !rd2_ok in HF' by lia. cbn [bind] in HF'. rewrite !wr2_ok in HF' by lia.
  destruct (K (i + 1) m ltac:(lia) Hm) as [F1 B1]. destruct (K i m ltac:(lia) Hm) as [F0 B0]. change (IZR (4800 * 16384)) with 78643200%R in *.
  destruct (fsub_ok _ _ F1 F0) as [Fd _]. { apply big. change (2 ^ 53) with 9007199254740992. apply Rabs_le. lra. }
  set (d := fsub _ _) in *.
  destruct (flt d (fint 0)) eqn:E; cbn [bind] in HF'.
  - destruct u as [u|]; [|discriminate]. apply Ok_inj in HF' as <-. unfold P. cbn [fst snd rows cols mk2].
    split; [exact A1|]. split; [exact A2|]. split; [now apply A4|]. split; [exact A4|].
    intros i' m' Hi' Hm'. rewrite get2_mk by lia. destruct (_ && _); auto.
  - assert (FS : is_finite (fsqrt d) = true).
    { apply fsqrt_ok; [exact Fd|]. apply flt_false_inv in E; [|exact Fd|reflexivity]. rewrite (fint_B2R 0) in E by lia. exact E. }
    apply Ok_inj in HF' as <-. unfold P. cbn [fst snd rows cols mk2].
    split; [exact A1|]. split; [exact A2|]. split; [exact FS|]. split.
    + intros x [= <-]. exact FS.
    + intros i' m' Hi' Hm'. rewrite get2_mk by lia. destruct (_ && _); auto.
Qed.

(*% the directional filters *)
(*% they are returned unless the powers of two of the directional component overflow *)
(*@ C89_directional_filters_return *)
Lemma fp3_dir_total : forall fexp fpow flg J L N J_min spin spin0, 1 <= L <= 2 ^ 52 -> float_powers L N -> 0 <= J_min < J -> J <= 32 -> powers_of_three fpow J ->
  (exists r, filters_directional_fp fexp fpow flg J L N J_min (fint 3) spin spin0 = Ok r) /\
  (exists r, filters_directional_vectorised_fp fexp fpow flg J L N J_min (fint 3) spin 0 = Ok r).
Proof.
  intros fexp fpow flg J L N J_min spin spin0 HL HF HJ HJ32 HP.
  destruct (fp3_filters_total fexp fpow J L J_min ltac:(lia) HJ HJ32 HP) as ((p1 & f1 & E1) & (p2 & f2 & E2) & _).
  destruct (fp_dirf_return fexp fpow flg J L N J_min (fint 3) spin spin0 HL HF) as [A B].
  destruct (A _ E1) as (x & y & X & _). destruct (B _ E2) as (x' & y' & X' & _). eauto.
Qed.

(*@ C89_jax_directional_filters_return *)
Lemma fp3_jax_total : forall fexp fpow jlg jexp J L N J_min spin, accurate_loggamma_to 1023 jlg -> relative_exp_to (7093 / 10) jexp ->
  1 <= L <= 2 ^ 52 -> 1 <= N -> 0 <= J_min < J -> J <= 32 -> powers_of_three fpow J ->
  ((exists r, filters_directional_jax_fp fexp fpow jlg jexp J L N J_min (fint 3) spin 0 = Ok r) <-> int64_powers L N).
Proof.
  intros fexp fpow jlg jexp J L N J_min spin Hg He HL HN HJ HJ32 HP.
  destruct (fp3_filters_total fexp fpow J L J_min ltac:(lia) HJ HJ32 HP) as (_ & _ & (p & f & E)).
  rewrite (jax_returned fexp fpow jlg jexp J L N J_min (fint 3) spin Hg He) by lia. split; [now intros [_ H]|]. intros H. split; [eauto|exact H].
Qed.

(*% every coefficient of the looped and of the vectorised directional filters is finite *)
(*@ C89_directional_filters_finite *)
Lemma fp3_dir_finite : forall fexp fpow flg J L N J_min spin psi phi, 1 <= L <= 794 -> 1 <= N -> J <= 32 ->
  accurate_loggamma_to 1023 flg -> relative_exp_to (7093 / 10) fexp -> accurate_exp fexp -> overflowing_exp fexp -> powers_of_three fpow J ->
  filters_directional_fp fexp fpow flg J L N J_min (fint 3) spin 0 = Ok (psi, phi) \/
  filters_directional_vectorised_fp fexp fpow flg J L N J_min (fint 3) spin 0 = Ok (psi, phi) ->
  forall l, Z.abs spin <= l < L ->
    is_finite (get1 phi l) = true /\
    forall j m, J_min <= j <= J -> Z.abs m < L -> is_finite (fst (get3 psi j l (L - 1 + m))) = true /\ is_finite (snd (get3 psi j l (L - 1 + m))) = true.
Proof.
  intros fexp fpow flg J L N J_min spin psi phi HL HN HJ32 Hg Hr Hf HO HP HD l Hl.
  destruct (fp_dir_many flg fexp L N Hg Hr ltac:(lia) HN ltac:(unfold float_powers; lia)) as (_ & s & _ & ES & _).
  assert (X : exists kpsi kphi, 0 <= J_min < J /\
    ((filters_axisym_fp fexp fpow J L J_min (fint 3) = Ok (kpsi, kphi) /\ filters_directional_fp fexp fpow flg J L N J_min (fint 3) spin 0 = Ok (psi, phi)) \/
     (filters_axisym_vectorised_fp fexp fpow J L J_min (fint 3) = Ok (kpsi, kphi) /\ filters_directional_vectorised_fp fexp fpow flg J L N J_min (fint 3) spin 0 = Ok (psi, phi))) /\
    forall j, 0 <= j <= J -> is_finite (get2 kpsi j l) = true /\ is_finite (get1 kphi l) = true).
  { destruct HD as [ED|ED]; pose proof ED as ED'.
    - unfold filters_directional_fp in ED'. apply bind_inv in ED' as (z1 & _ & ED'). apply bind_inv in ED' as (z3 & _ & ED').
      apply bind_inv in ED' as ([kpsi kphi] & EA & _). exists kpsi, kphi.
      split; [apply (axisym_fp_inv _ _ _ _ _ _ _ _ EA)|]. split; [left; split; assumption|]. intros j Hj.
      apply (fp3_loop_finite fexp fpow J L J_min kpsi kphi ltac:(lia) HJ32 Hf HO HP EA); lia.
    - unfold filters_directional_vectorised_fp in ED'. change (negb (0 =? 0)) with false in ED'. cbv iota in ED'.
      apply bind_inv in ED' as ([kpsi kphi] & EA & _). exists kpsi, kphi.
      split; [apply (axisym_vec_fp_inv _ _ _ _ _ _ _ _ EA)|]. split; [right; split; assumption|]. intros j Hj.
      apply (fp3_finite fexp fpow J L J_min kpsi kphi ltac:(lia) HJ32 Hf HO HP (or_introl EA)); lia. }
  destruct X as (kpsi & kphi & HJ & HB & HF).
  destruct (fp_dirf_acc_many fexp fpow flg J L N J_min (fint 3) spin kpsi kphi psi phi s Hg Hr ltac:(lia) HN ltac:(lia) HB ES l Hl) as [A B].
  split; [apply A, (HF 0); lia|]. intros j m Hj Hm. destruct (B j m Hj Hm) as (C & D & _); [apply HF; lia|]. split; assumption.
Qed.

(*% and of the JAX ones *)
(*@ C89_jax_directional_filters_finite *)
Lemma fp3_jax_finite : forall fexp fpow jlg jexp J L N J_min spin psi phi, 1 <= L <= 794 -> 1 <= N -> J <= 32 ->
  accurate_loggamma_to 1023 jlg -> relative_exp_to (7093 / 10) jexp -> accurate_exp fexp -> overflowing_exp fexp -> powers_of_three fpow J ->
  filters_directional_jax_fp fexp fpow jlg jexp J L N J_min (fint 3) spin 0 = Ok (psi, phi) ->
  forall l, Z.abs spin <= l < L ->
    is_finite (get1 phi l) = true /\
    forall j m, J_min <= j <= J -> Z.abs m < L -> is_finite (fst (get3 psi j l (L - 1 + m))) = true /\ is_finite (snd (get3 psi j l (L - 1 + m))) = true.
Proof.
  intros fexp fpow jlg jexp J L N J_min spin psi phi HL HN HJ32 Hg Hr Hf HO HP ED l Hl.
  destruct (proj1 (jax_returned fexp fpow jlg jexp J L N J_min (fint 3) spin Hg Hr ltac:(lia) HN) (ex_intro _ _ ED)) as [([kpsi kphi] & EA) H6].
  destruct (fp_dir_many jlg jexp L N Hg Hr ltac:(lia) HN (int64_float L N H6)) as (_ & s & _ & ES & _).
  pose proof EA as EV. rewrite axi_jax in EV. destruct (axisym_vec_fp_inv _ _ _ _ _ _ _ _ EV) as (HJ & _).
  assert (HF : forall j, 0 <= j <= J -> is_finite (get2 kpsi j l) = true /\ is_finite (get1 kphi l) = true).
  { intros j Hj. apply (fp3_finite fexp fpow J L J_min kpsi kphi ltac:(lia) HJ32 Hf HO HP (or_introl EV)); lia. }
  destruct (jax_acc_many fexp fpow jlg jexp J L N J_min (fint 3) spin kpsi kphi psi phi s Hg Hr ltac:(lia) HN EA ED ES l Hl) as [A B].
  split; [apply A, (HF 0); lia|]. intros j m Hj Hm. destruct (B j m Hj Hm) as (C & D & _); [apply HF; lia|]. split; assumption.
Qed.

(*% from band-limit 795 on, the JAX directional filters contain infinities or NaNs at every order, like the vectorised ones *)
(*@ C89_jax_directional *)
Lemma fp3_jax_directional : forall fexp fpow jlg jexp J L N J_min spin psi phi, 795 <= L <= 2 ^ 53 -> 6 <= J <= 32 -> J_min <= 6 -> Z.abs spin <= 794 ->
  accurate_exp fexp -> overflowing_exp fexp -> powers_of_three fpow J ->
  filters_directional_jax_fp fexp fpow jlg jexp J L N J_min (fint 3) spin 0 = Ok (psi, phi) ->
  forall i, 0 <= i < 2 * L - 1 -> is_finite (fst (get3 psi 6 794 i)) = false.
Proof.
  intros fexp fpow jlg jexp J L N J_min spin psi phi HL HJ HJm Hs HE HO HP E. now destruct (jaxfilt3 fexp fpow jlg jexp J L N J_min spin psi phi HL HJ HJm Hs HE HO HP E).
Qed.

(*% up to band-limit 794 no energy is lost: the squares of the vectorised and JAX axisymmetric filters sum to at least 1 - 2^-51 at every degree, *)
(*% and to more than 1 + 2^-51 only where the quadrature exceeds its normalisation *)
(*@ C89_energy *)
Lemma fp3_energy : forall fexp fpow J L J_min psi phi k l, L <= 794 -> J <= 32 -> L <= 3 ^ J -> accurate_exp fexp -> overflowing_exp fexp -> powers_of_three fpow J ->
  increasing_powers fpow (fint 3) J ->
  filters_axisym_vectorised_fp fexp fpow J L J_min (fint 3) = Ok (psi, phi) \/
  filters_axisym_jax_fp fexp fpow J L J_min (fint 3) = Ok (psi, phi) ->
  k_lam_fp fexp fpow J L (fint 3) 300 = Ok k -> 0 <= l < L ->
  (1 - bpow radix2 (-51) <= fp_total psi phi J_min J l)%R /\
  ((1 + bpow radix2 (-51) < fp_total psi phi J_min J l)%R -> exists j, J_min <= j <= J /\ (1 < B2R (get2 k j l))%R).
Proof.
  intros fexp fpow J L J_min psi phi k l HL HJ HLJ HE HO HP HI HF Ek Hl. rewrite axi_jax in HF.
  assert (EV : filters_axisym_vectorised_fp fexp fpow J L J_min (fint 3) = Ok (psi, phi)) by tauto.
  destruct (axisym_vec_fp_inv _ _ _ _ _ _ _ _ EV) as (HJm & _).
  assert (HN : normalised fexp (fint 3)).
  { destruct (norm3 fexp HE) as (c & Ec & [Fc Bc] & Lc). exists c3, c. split; [apply il_is_third|]. split; [exact Ec|].
    apply flt_true; [reflexivity|exact Fc|]. rewrite (fint_B2R 0) by lia. lra. }
  assert (HLp : (IZR L <= B2R (fpow (fint 3) J))%R).
  { rewrite (proj2 HP) by lia. pose proof (three_le J ltac:(lia)). rewrite fint_B2R by lia. now apply IZR_le. }
  pose proof (bpow_gt_0 radix2 (-51)) as B0. change (bpow radix2 (-51)) with (/ 2251799813685248)%R in *.
  destruct (fp_excess fexp fpow J L J_min (fint 3) psi phi k l ltac:(lia) HI HLp HN EV Ek Hl) as [[_ A]|(j & Hj & H1 & A)].
  - intros j Hj. refine (proj2 (fp3_entries fexp fpow J L k j l _ HJ HE HO HP Ek _ Hl) _); [lia|lia|apply fp3_first; lia].
  - change (bpow radix2 (-51)) with (/ 2251799813685248)%R in A. apply Rabs_le_inv in A. split; [lra|]. intros H. lra.
  - change (bpow radix2 (-51)) with (/ 2251799813685248)%R in A. apply Rabs_le_inv in A. split; [nra|]. intros _. eauto.
Qed.

(*% L = 794 (J = 7), N = 63, spin 2: filters are returned, and their coefficients at l = 793 are finite *)
(*@E C89_directional_example *)
Lemma ex_c89_dir : exists fexp fpow flg psi phi, accurate_loggamma_to 1023 flg /\ relative_exp_to (7093 / 10) fexp /\ accurate_exp fexp /\ overflowing_exp fexp /\ powers_of_three fpow 7 /\
  filters_directional_fp fexp fpow flg 7 794 63 0 (fint 3) 2 0 = Ok (psi, phi) /\
  is_finite (get1 phi 2) = true /\ is_finite (fst (get3 psi 6 793 (794 - 1 + 30))) = true /\
  exists jpsi jphi, filters_directional_jax_fp fexp fpow flg fexp 7 794 63 0 (fint 3) 2 0 = Ok (jpsi, jphi) /\ is_finite (fst (get3 jpsi 6 793 (794 - 1 + 30))) = true.
Proof.
  set (ex := fun x => if flt (fint 710) x then finf else near_exp x).
  pose proof (pow3_ok 7) as HP. pose proof near_loggamma_many as Hg.
  assert (Hr : relative_exp_to (7093 / 10) ex).
  { intros x F Hx. unfold ex. rewrite flt_false; [now apply near_relative_many|reflexivity|exact F|]. rewrite (fint_B2R 710) by lia. lra. }
  assert (Hf : accurate_exp ex).
  { intros x F Hx. unfold ex. rewrite flt_false; [now apply near_accurate|reflexivity|exact F|]. rewrite (fint_B2R 710) by lia. lra. }
  assert (HO : overflowing_exp ex) by (intros x H; unfold ex; now rewrite H).
  destruct (fp3_dir_total ex pow3 near_lg 7 794 63 0 2 0 ltac:(lia) ltac:(left; lia) ltac:(lia) ltac:(lia) HP) as [([psi phi] & E) _].
  assert (H6 : int64_powers 794 63) by (left; lia).
  destruct (proj2 (fp3_jax_total ex pow3 near_lg ex 7 794 63 0 2 Hg Hr ltac:(lia) ltac:(lia) ltac:(lia) ltac:(lia) HP) H6) as ([jpsi jphi] & E').
  pose proof (fp3_dir_finite ex pow3 near_lg 7 794 63 0 2 psi phi ltac:(lia) ltac:(lia) ltac:(lia) Hg Hr Hf HO HP (or_introl E)) as F.
  pose proof (fp3_jax_finite ex pow3 near_lg ex 7 794 63 0 2 jpsi jphi ltac:(lia) ltac:(lia) ltac:(lia) Hg Hr Hf HO HP E') as F'.
  exists ex, pow3, near_lg, psi, phi. split; [exact Hg|]. split; [exact Hr|]. split; [exact Hf|]. split; [exact HO|]. split; [exact HP|]. split; [exact E|].
  split; [apply (F 2); lia|]. split; [apply (proj2 (F 793 ltac:(lia)) 6 30); lia|].
  exists jpsi, jphi. split; [exact E'|]. apply (proj2 (F' 793 ltac:(lia)) 6 30); lia.
Qed.

(*% L = 794 (J = 7): the hypotheses of the energy bound hold *)
(*@E C89_energy_example *)
Lemma ex_c89_energy : exists fexp fpow psi phi, accurate_exp fexp /\ overflowing_exp fexp /\ powers_of_three fpow 7 /\ increasing_powers fpow (fint 3) 7 /\
  filters_axisym_vectorised_fp fexp fpow 7 794 0 (fint 3) = Ok (psi, phi) /\ (1 - bpow radix2 (-51) <= fp_total psi phi 0 7 700)%R.
Proof.
  set (ex := fun x => if flt (fint 710) x then finf else near_exp x). pose proof (pow3_ok 7) as HP.
  assert (Hf : accurate_exp ex).
  { intros x F Hx. unfold ex. rewrite flt_false; [now apply near_accurate|reflexivity|exact F|]. rewrite (fint_B2R 710) by lia. lra. }
  assert (HO : overflowing_exp ex) by (intros x H; unfold ex; now rewrite H).
  assert (HI : increasing_powers pow3 (fint 3) 7).
  { assert (V : forall j, 0 <= j <= 8 -> is_finite (pow3 (fint 3) j) = true /\ B2R (pow3 (fint 3) j) = IZR (3 ^ j)).
    { intros j Hj. rewrite (proj2 HP) by lia. pose proof (three_le j ltac:(lia)). apply fint_ok. lia. }
    assert (V1 : is_finite (pow3 (fint 3) (-1)) = true /\ B2R (pow3 (fint 3) (-1)) = (6004799503160661 * e54)%R) by apply c3_val.
    split; [|split; [|split]].
    - intros j Hj. destruct (Z.eq_dec j (-1)) as [->|]; [apply V1|apply V; lia].
    - rewrite (proj2 V1). unfold e54. lra.
    - now rewrite (proj2 (V 0 ltac:(lia))).
    - intros j Hj. destruct (Z.eq_dec j (-1)) as [->|].
      + change (-1 + 1) with 0. rewrite (proj2 V1), (proj2 (V 0 ltac:(lia))). change (3 ^ 0) with 1. unfold e54. lra.
      + rewrite (proj2 (V j ltac:(lia))), (proj2 (V (j + 1) ltac:(lia))). apply IZR_lt, Z.pow_lt_mono_r; lia. }
  destruct (fp3_filters_total ex pow3 7 794 0 ltac:(lia) ltac:(lia) ltac:(lia) HP) as (_ & (psi & phi & E) & _).
  destruct (fp3_total ex pow3 7 794 ltac:(lia) ltac:(lia) HP) as (k & Ek & _).
  exists ex, pow3, psi, phi. split; [exact Hf|]. split; [exact HO|]. split; [exact HP|]. split; [exact HI|]. split; [exact E|].
  refine (proj1 (fp3_energy ex pow3 7 794 0 psi phi k 700 _ _ _ Hf HO HP HI (or_introl E) Ek _)); [lia|lia|vm_compute; discriminate|lia].
Qed.
