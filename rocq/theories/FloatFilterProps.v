(** Statements and proofs for PropertiesFloatFilter.v *)

From Coq Require Import ZArith Reals List Bool Lia Lra Psatz.
From Flocq Require Import Core Relative IEEE754.BinarySingleNaN.
From Verif Require Import Py PyFacts ModelSamples SamplesFacts ModelFilters FiltersFacts ModelFloat FloatProps SpecFp FloatFacts.
Import ListNotations.
Open Scope Z_scope.

(*T Sizes and axisymmetric filters in binary64 *)
(*! From Coq Require Import ZArith Reals List Bool. *)
(*! From Flocq Require Import Core IEEE754.BinarySingleNaN. *)
(*! From Verif Require Import Py ModelSamples ModelFilters ModelFloat SpecFp. *)

(*% ** C61: sizes *)

Lemma pow_le fpow lam J : increasing_powers fpow lam J ->
  forall i j, -1 <= i -> i <= j -> j <= J + 1 -> (B2R (fpow lam i) <= B2R (fpow lam j))%R.
Proof.
  intros (_ & _ & _ & H) i j Hi Hij Hj. replace j with (i + Z.of_nat (Z.to_nat (j - i))) by lia.
  assert (HK : (Z.to_nat (j - i) <= Z.to_nat (J + 1 - i))%nat) by lia. revert HK.
  induction (Z.to_nat (j - i)) as [|m IH]; intros HK.
  - replace (i + Z.of_nat 0) with i by lia. lra.
  - apply Rle_trans with (B2R (fpow lam (i + Z.of_nat m))); [apply IH; lia|].
    replace (i + Z.of_nat (S m)) with (i + Z.of_nat m + 1) by lia. apply Rlt_le, H. lia.
Qed.
Lemma pow_pos fpow lam J j : increasing_powers fpow lam J -> -1 <= j <= J + 1 -> (0 < B2R (fpow lam j))%R.
Proof.
  intros H Hj. apply Rlt_le_trans with (B2R (fpow lam (-1))); [apply H|apply (pow_le _ _ J); auto; lia].
Qed.

(** the rows of k_lam in the two constant ranges *)
Lemma kl_one fexp fpow J L lam k : k_lam_fp fexp fpow J L lam 300 = Ok k -> L <= 2 ^ 53 -> increasing_powers fpow lam J ->
  forall j l, 0 <= j < J + 2 -> 0 <= l < L -> (IZR l < B2R (fpow lam (j - 1)%Z))%R -> get2 k j l = fint 1.
Proof.
  intros Hk HL HP j l Hj Hl H. destruct (k_lam_fp_inv _ _ _ _ _ _ _ Hk) as (il & c & _ & _ & _ & _ & _ & _ & D).
  specialize (D j l Hj Hl). rewrite k_one in D; [now injection D|lia| |exact H]. apply HP. lia.
Qed.
Lemma kl_zero fexp fpow J L lam k : k_lam_fp fexp fpow J L lam 300 = Ok k -> L <= 2 ^ 53 -> increasing_powers fpow lam J ->
  normalised fexp lam ->
  forall j l, 0 <= j < J + 2 -> 0 <= l < L -> (B2R (fpow lam j) <= IZR l)%R -> get2 k j l = fint 0.
Proof.
  intros Hk HL HP (il' & c' & E1 & E2 & E3) j l Hj Hl H.
  destruct (k_lam_fp_inv _ _ _ _ _ _ _ Hk) as (il & c & E4 & E5 & _ & _ & _ & _ & D).
  rewrite E1 in E4. injection E4 as <-. rewrite E2 in E5. injection E5 as <-.
  specialize (D j l Hj Hl). rewrite k_zero in D; auto; try lia; [now injection D| | | |].
  - apply HP. lia.
  - apply HP. lia.
  - apply (pow_pos _ _ J); auto. lia.
  - apply Rle_trans with (2 := H). apply (pow_le _ _ J); auto; lia.
Qed.

Lemma LN_j_fp_inv fpow L j N lam Lj Nj L0j : 0 <= j -> LN_j_fp fpow L j N lam true = Ok (Lj, Nj, L0j) ->
  let j' := Z.max 1 j in
  is_finite (fpow lam (j' + 1)) = true /\ is_finite (fpow lam (j' - 1)) = true /\
  Lj = Z.min (rceil (B2R (fpow lam (j' + 1)%Z))) L /\ L0j = rceil (B2R (fpow lam (j' - 1)%Z)).
Proof.
  intros Hj H j'. unfold LN_j_fp in H.
  replace (if j =? 0 then j + 1 else j) with j' in H by (unfold j'; destruct (Z.eqb_spec j 0); lia).
  unfold wav_j_bandlimit_fp, L0_j_fp in H.
  destruct (Z.eqb_spec j' 0); [lia|]. cbn [negb] in H.
  apply bind_inv in H as (a & Ha & H). apply bind_inv in Ha as (a' & Ha' & Ha).
  apply bind_inv in H as (b & Hb & H). apply fceil_inv in Ha' as [F1 ->]. apply fceil_inv in Hb as [F2 ->].
  injection Ha as <-. injection H as <- _ <-. auto.
Qed.

Lemma ceil_gt l x : (l < rceil x) -> (IZR l < x)%R.
Proof. intros H. destruct (Rlt_or_le (IZR l) x) as [|G]; [assumption|]. apply Zceil_glb in G. unfold rceil in H. lia. Qed.
Lemma ceil_le l x : (rceil x <= l) -> (x <= IZR l)%R.
Proof. intros H. apply Rle_trans with (IZR (rceil x)); [apply Zceil_ub|apply IZR_le; exact H]. Qed.

Lemma psi_fp fexp fpow J L J_min lam psi phi :
  filters_axisym_fp fexp fpow J L J_min lam = Ok (psi, phi) \/
  filters_axisym_vectorised_fp fexp fpow J L J_min lam = Ok (psi, phi) ->
  0 <= J_min < J /\ exists k, k_lam_fp fexp fpow J L lam 300 = Ok k /\
  (forall j l, 0 <= j <= J -> 0 <= l < L -> fsub (get2 k (j + 1) l) (get2 k j l) = fint 0 -> get2 psi j l = fint 0) /\
  (forall l, 0 <= l < L -> get1 phi l = fsqrt (get2 k J_min l)).
Proof.
  intros [H|H].
  - apply loop_fp_inv in H as (HJ & k & Hk & _ & _ & _ & A & B & D). split; [exact HJ|]. exists k. split; [exact Hk|].
    split; [|exact D]. intros j l Hj Hl E. destruct (Z_lt_le_dec j J_min) as [G|G]; [apply B; auto; lia|].
    cbv zeta in A. rewrite A; auto; [rewrite E; reflexivity|lia|rewrite E; reflexivity].
  - apply vec_fp_inv in H as (HJ & k & Hk & _ & _ & _ & A & D). split; [exact HJ|]. exists k. split; [exact Hk|].
    split; [|exact D]. intros j l Hj Hl E. rewrite A, E by auto. reflexivity.
Qed.

(*% the multiresolution band-limits the library computes enclose the support of the filters it computes, exactly,
   whatever the rounding errors of its powers *)
(*@ C61_wavelet_support *)
Lemma fp_support : forall fexp fpow J L N J_min lam psi phi, L <= 2 ^ 53 ->
  increasing_powers fpow lam J -> normalised fexp lam ->
  filters_axisym_fp fexp fpow J L J_min lam = Ok (psi, phi) \/
  filters_axisym_vectorised_fp fexp fpow J L J_min lam = Ok (psi, phi) ->
  forall j l Lj Nj L0j, 0 <= j <= J -> 0 <= l < L -> LN_j_fp fpow L j N lam true = Ok (Lj, Nj, L0j) ->
  get2 psi j l <> fint 0 -> L0j <= l < Lj.
Proof.
  intros fexp fpow J L N J_min lam psi phi HL HP HN HF j l Lj Nj L0j Hj Hl HS Hne.
  apply psi_fp in HF as (HJ & k & Hk & A & _).
  destruct (LN_j_fp_inv fpow L j N lam Lj Nj L0j) as (F1 & F2 & E1 & E2); [lia|exact HS|].
  assert (K0 := kl_zero _ _ _ _ _ _ Hk HL HP HN). assert (K1 := kl_one _ _ _ _ _ _ Hk HL HP).
  split.
  - destruct (Z_le_gt_dec L0j l) as [|G]; [assumption|]. exfalso. apply Hne, A; auto.
    assert (G' : (IZR l < B2R (fpow lam (Z.max 1 j - 1)%Z))%R) by (apply ceil_gt; lia).
    assert (G1 : (IZR l < B2R (fpow lam (j - 1)%Z))%R).
    { destruct (Z.eq_dec j 0) as [->|]; [|now replace (Z.max 1 j - 1) with (j - 1) in G' by lia].
      change (Z.max 1 0 - 1) with 0 in G'. destruct HP as (_ & P1 & P0 & _). rewrite P0 in G'.
      apply (lt_IZR l 1) in G'. replace l with 0 by lia. exact P1. }
    rewrite (K1 j l), (K1 (j + 1) l); auto; [lia| |lia]. replace (j + 1 - 1) with j by lia.
    apply Rlt_le_trans with (1 := G1). apply (pow_le _ _ J); auto; lia.
  - destruct (Z_lt_le_dec l Lj) as [|G]; [assumption|]. exfalso. apply Hne, A; auto.
    assert (G' : (B2R (fpow lam (Z.max 1 j + 1)%Z) <= IZR l)%R) by (apply ceil_le; lia).
    assert (M := pow_le _ _ _ HP).
    rewrite (K0 j l), (K0 (j + 1) l); auto; try lia; (apply Rle_trans with (2 := G'); apply M; lia).
Qed.

(*@ C61_scaling_support *)
Lemma fp_support_scal : forall fexp fpow J L J_min lam psi phi, L <= 2 ^ 53 ->
  increasing_powers fpow lam J -> normalised fexp lam ->
  filters_axisym_fp fexp fpow J L J_min lam = Ok (psi, phi) \/
  filters_axisym_vectorised_fp fexp fpow J L J_min lam = Ok (psi, phi) ->
  forall l Ls, 0 <= l < L -> scal_bandlimit_fp fpow L J_min lam true = Ok Ls ->
  get1 phi l <> fint 0 -> l < Ls.
Proof.
  intros fexp fpow J L J_min lam psi phi HL HP HN HF l Ls Hl HS Hne.
  apply psi_fp in HF as (HJ & k & Hk & _ & A).
  unfold scal_bandlimit_fp in HS. apply bind_inv in HS as (c & Hc & HS). apply fceil_inv in Hc as [F ->]. injection HS as <-.
  destruct (Z_lt_le_dec l (Z.min (rceil (B2R (fpow lam J_min))) L)) as [|G]; [assumption|]. exfalso. apply Hne.
  rewrite A by auto. rewrite (kl_zero _ _ _ _ _ _ Hk HL HP HN); auto; [lia|]. apply ceil_le. lia.
Qed.

#[local] Existing Instance gt53.
(** faithful rounding and integers *)
Lemma fmt_int k : Z.abs k <= 2 ^ 53 -> generic_format radix2 (FLT_exp (-1074) 53) (IZR k).
Proof. exact (format_int k). Qed.
Lemma up_ge p : (p <= round radix2 (FLT_exp (-1074) 53) Zceil p)%R.
Proof. apply round_UP_pt. typeclasses eauto. Qed.
Lemma dn_le p : (round radix2 (FLT_exp (-1074) 53) Zfloor p <= p)%R.
Proof. apply round_DN_pt. typeclasses eauto. Qed.
Lemma up_le p k : Z.abs k <= 2 ^ 53 -> (p <= IZR k)%R -> (round radix2 (FLT_exp (-1074) 53) Zceil p <= IZR k)%R.
Proof. intros Hk H. apply round_le_generic; try typeclasses eauto; [apply fmt_int; exact Hk|exact H]. Qed.
Lemma dn_ge p k : Z.abs k <= 2 ^ 53 -> (IZR k <= p)%R -> (IZR k <= round radix2 (FLT_exp (-1074) 53) Zfloor p)%R.
Proof. intros Hk H. apply round_ge_generic; try typeclasses eauto; [apply fmt_int; exact Hk|exact H]. Qed.

Definition next_to (x p : R) : Prop :=
  x = round radix2 (FLT_exp (-1074) 53) Zfloor p \/ x = round radix2 (FLT_exp (-1074) 53) Zceil p.

Lemma ceil_next x p : next_to x p -> (0 < p <= IZR (2 ^ 53))%R ->
  rceil x = rceil p \/ (rceil x = rceil p - 1 /\ x = IZR (rceil x)).
Proof.
  intros H Hp. unfold rceil in *.
  assert (C1 : 0 <= Zceil p <= 2 ^ 53).
  { split; [|apply Zceil_glb; lra]. apply le_IZR. apply Rle_trans with p; [lra|apply Zceil_ub]. }
  assert (C2 : Zfloor p <= Zceil p <= Zfloor p + 1).
  { split; [apply le_IZR, Rle_trans with p; [apply Zfloor_lb|apply Zceil_ub]|].
    apply Zceil_glb. rewrite plus_IZR. apply Rlt_le, Zfloor_ub. }
  destruct H as [-> | ->].
  - set (x := round _ _ _ _). assert (X1 : (x <= p)%R) by apply dn_le.
    assert (X2 : (IZR (Zfloor p) <= x)%R). { apply dn_ge; [|apply Zfloor_lb]. assert (0 <= Zfloor p) by (apply Zfloor_lub; lra). lia. }
    assert (X3 : Zceil x <= Zceil p) by (apply Zceil_le; exact X1).
    assert (X4 : Zfloor p <= Zceil x) by (apply le_IZR, Rle_trans with x; [exact X2|apply Zceil_ub]).
    destruct (Z.eq_dec (Zceil x) (Zceil p)) as [|N]; [auto|]. right. split; [lia|].
    apply Rle_antisym; [apply Zceil_ub|]. apply Rle_trans with (2 := X2). apply IZR_le. lia.
  - left. apply Z.le_antisymm.
    + apply Zceil_glb, up_le; [lia|apply Zceil_ub].
    + apply Zceil_le, up_ge.
Qed.
Lemma next_big x p k : Z.abs k <= 2 ^ 53 -> next_to x p -> (IZR k <= p)%R -> (IZR k <= x)%R.
Proof.
  intros Hk [-> | ->] H; [apply dn_ge; auto|]. apply Rle_trans with (1 := H), up_ge.
Qed.
Lemma next_int x p k : next_to x p -> p = IZR k -> Z.abs k <= 2 ^ 53 -> x = p.
Proof.
  intros H E Hk. assert (G := fmt_int k Hk). rewrite <- E in G.
  destruct H as [-> | ->]; apply round_generic; auto; typeclasses eauto.
Qed.

(** ceil and min of a faithful power against the exact one *)
Lemma min_next x p L : next_to x p -> (0 < p)%R -> Z.abs L <= 2 ^ 53 ->
  Z.min (rceil x) L = Z.min (rceil p) L \/
  (Z.min (rceil x) L = Z.min (rceil p) L - 1 /\ x = IZR (rceil x) /\ (x < p)%R).
Proof.
  intros H Hp HL. destruct (Rle_or_lt p (IZR (2 ^ 53))) as [G|G].
  - destruct (ceil_next x p H ltac:(lra)) as [-> | [E X]]; [auto|].
    destruct (Z_lt_le_dec L (rceil p)) as [B|B]; [left; lia|]. right. split; [lia|]. split; [exact X|].
    rewrite X. apply ceil_gt. lia.
  - left. assert (A1 : 2 ^ 53 <= rceil p) by (apply le_IZR, Rle_trans with p; [lra|apply Zceil_ub]).
    assert (A2 : (IZR (2 ^ 53) <= x)%R) by (apply (next_big x p); auto; [cbn; lia|lra]).
    assert (A3 : 2 ^ 53 <= rceil x) by (apply le_IZR, Rle_trans with x; [exact A2|apply Zceil_ub]). lia.
Qed.

Lemma pypow_pos lam j : (0 < lam)%R -> pypow lam j = Ok (powerRZ lam j).
Proof. intros H. unfold pypow. rewrite reqb_false by lra. reflexivity. Qed.

(*% each band-limit is the exact one or, when the computed power is an integer just below the exact power, one less *)
(*@ C61_bandlimits_within_one *)
Lemma fp_bandlimits : forall fpow lam L j, Z.abs L <= 2 ^ 53 -> 0 <= j -> (0 < B2R lam)%R ->
  faithful_power fpow lam (Z.max 1 j + 1) -> faithful_power fpow lam j ->
  (exists e r, wav_j_bandlimit L j (B2R lam) true = Ok e /\ wav_j_bandlimit_fp fpow L j lam true = Ok r /\
     (r = e \/ (r = e - 1 /\ B2R (fpow lam (Z.max 1 j + 1)%Z) = IZR r /\ (IZR r < powerRZ (B2R lam) (Z.max 1 j + 1)%Z)%R))) /\
  (exists e r, scal_bandlimit L j (B2R lam) true = Ok e /\ scal_bandlimit_fp fpow L j lam true = Ok r /\
     (r = e \/ (r = e - 1 /\ B2R (fpow lam j) = IZR r /\ (IZR r < powerRZ (B2R lam) j)%R))).
Proof.
  intros fpow lam L j HL Hj Hlam [F1 H1] [F2 H2]. cbv zeta in H1, H2.
  assert (G : forall m, is_finite (fpow lam m) = true -> next_to (B2R (fpow lam m)) (powerRZ (B2R lam) m) ->
    exists e r, (p <- pypow (B2R lam) m ;; Ok (Z.min (rceil p) L)) = Ok e /\ (c <- fceil (fpow lam m) ;; Ok (Z.min c L)) = Ok r /\
     (r = e \/ (r = e - 1 /\ B2R (fpow lam m) = IZR r /\ (IZR r < powerRZ (B2R lam) m)%R))).
  { intros m Fm Hm. rewrite pypow_pos, fceil_ok by assumption. cbn [bind].
    do 2 eexists. split; [reflexivity|]. split; [reflexivity|].
    destruct (min_next _ _ L Hm (powerRZ_lt _ m Hlam) HL) as [->|(E & X & Y)]; [auto|].
    right. split; [exact E|]. set (x := B2R (fpow lam m)) in *.
    destruct (Z_le_gt_dec (rceil x) L) as [Q|Q].
    - replace (Z.min (rceil x) L) with (rceil x) by lia. split; [exact X|]. rewrite <- X. exact Y.
    - exfalso. replace (Z.min (rceil x) L) with L in E by lia. lia. }
  split.
  - unfold wav_j_bandlimit, wav_j_bandlimit_fp.
    replace (if j =? 0 then j + 1 else j) with (Z.max 1 j) by (destruct (Z.eqb_spec j 0); lia). apply G; auto.
  - unfold scal_bandlimit, scal_bandlimit_fp. apply G; auto.
Qed.

(*% for integer dilations the sizes are the exact ones *)
(*@ C61_sizes_exact_for_integer_dilations *)
Lemma fp_sizes_int : forall fpow k L j N mr, 2 <= k <= 2 ^ 53 -> Z.abs L <= 2 ^ 53 -> 0 <= j ->
  k ^ (Z.max 1 j - 1) <= 2 ^ 53 ->
  (forall i, 0 <= i <= Z.max 1 j + 1 -> faithful_power fpow (fint k) i) ->
  LN_j_fp fpow L j N (fint k) mr = LN_j L j N (IZR k) mr /\
  scal_bandlimit_fp fpow L j (fint k) mr = scal_bandlimit L j (IZR k) mr.
Proof.
  intros fpow k L j N mr Hk HL Hj HB HF.
  assert (Ek : B2R (fint k) = IZR k) by (apply fint_B2R; lia).
  assert (Pk : (0 < IZR k)%R) by (apply (IZR_lt 0); lia).
  assert (M : forall i, 0 <= i <= Z.max 1 j + 1 ->
    (p <- pypow (IZR k) i ;; Ok (Z.min (rceil p) L)) = (c <- fceil (fpow (fint k) i) ;; Ok (Z.min c L))).
  { intros i Hi. destruct (HF i Hi) as [F H]. cbv zeta in H. rewrite Ek in H.
    rewrite pypow_pos, fceil_ok by assumption. cbn [bind]. f_equal.
    rewrite pw_IZR in H |- * by lia.
    destruct (Z_le_gt_dec (k ^ i) (2 ^ 53)) as [G|G].
    - rewrite (next_int _ _ (k ^ i) H eq_refl); [reflexivity|]. pose proof (Z.pow_nonneg k i). lia.
    - assert (A2 : (IZR (2 ^ 53) <= B2R (fpow (fint k) i))%R).
      { apply (next_big _ (IZR (k ^ i))); auto; [cbn; lia|]. apply IZR_le. lia. }
      assert (A3 : 2 ^ 53 <= rceil (B2R (fpow (fint k) i))) by (apply le_IZR, Rle_trans with (1 := A2), Zceil_ub).
      replace (rceil (IZR (k ^ i))) with (k ^ i) by (symmetry; apply Zceil_IZR). lia. }
  split.
  - unfold LN_j, LN_j_fp, wav_j_bandlimit, wav_j_bandlimit_fp, L0_j, L0_j_fp.
    replace (if j =? 0 then j + 1 else j) with (Z.max 1 j) by (destruct (Z.eqb_spec j 0); lia).
    destruct (Z.eqb_spec (Z.max 1 j) 0); [lia|]. cbn [negb]. destruct mr; [|reflexivity].
    rewrite M by lia. destruct (fceil _) as [c|]; [|reflexivity]. cbn [bind].
    rewrite pypow_pos by assumption. cbn [bind].
    destruct (HF (Z.max 1 j - 1) ltac:(lia)) as [F H]. cbv zeta in H. rewrite Ek in H.
    rewrite fceil_ok by assumption. cbn [bind]. rewrite pw_IZR in H |- * by lia.
    rewrite (next_int _ _ _ H eq_refl); [reflexivity|]. pose proof (Z.pow_nonneg k (Z.max 1 j - 1)). lia.
  - unfold scal_bandlimit, scal_bandlimit_fp. destruct mr; [|reflexivity]. rewrite M by lia. reflexivity.
Qed.

(** powers of two, exactly *)
Definition pow2 (_ : f64) (j : Z) : f64 := binary_normalize 53 1024 gt53 lt53 mode_NE 1 j false.
Lemma pow2_ok lam j : -1074 <= j < 1024 -> is_finite (pow2 lam j) = true /\ B2R (pow2 lam j) = bpow radix2 j.
Proof.
  intros Hj. pose proof (binary_normalize_correct 53 1024 gt53 lt53 mode_NE 1 j false) as H.
  cbv zeta in H. change (binary_normalize 53 1024 gt53 lt53 mode_NE 1 j false) with (pow2 lam j) in H.
  assert (E : F2R (Float radix2 1 j) = bpow radix2 j) by (unfold F2R; cbn [Fnum Fexp]; lra). rewrite E in H.
  rewrite round_generic in H; [|typeclasses eauto|].
  - rewrite Rlt_bool_true in H; [tauto|]. rewrite Rabs_pos_eq by apply bpow_ge_0. apply bpow_lt. lia.
  - change (SpecFloat.fexp 53 1024) with (FLT_exp (-1074) 53). apply generic_format_bpow.
    unfold FLT_exp. lia.
Qed.
Lemma pow2_incr lam J : J <= 1000 -> increasing_powers pow2 lam J.
Proof.
  intros HJ. split; [|split; [|split]].
  - intros j Hj. apply pow2_ok. lia.
  - destruct (pow2_ok lam (-1)) as [_ ->]; [lia|]. apply bpow_gt_0.
  - destruct (pow2_ok lam 0) as [_ ->]; [lia|]. reflexivity.
  - intros j Hj. destruct (pow2_ok lam j) as [_ ->]; [lia|]. destruct (pow2_ok lam (j + 1)) as [_ ->]; [lia|]. apply bpow_lt. lia.
Qed.
Lemma pow2_exact j : -1074 <= j -> generic_format radix2 (FLT_exp (-1074) 53) (bpow radix2 j).
Proof. intros. apply generic_format_bpow. unfold FLT_exp. lia. Qed.
Lemma pow2_faithful j : -1074 <= j < 1024 -> faithful_power pow2 (fint 2) j.
Proof.
  intros Hj. destruct (pow2_ok (fint 2) j Hj) as [F E]. split; [exact F|]. cbv zeta. left. rewrite E.
  rewrite fint_B2R by lia. assert (E2 : powerRZ 2 j = bpow radix2 j) by (rewrite bpow_powerRZ; reflexivity).
  rewrite E2. symmetry. apply round_generic; [typeclasses eauto|]. apply pow2_exact. lia.
Qed.

Definition okpair (r : res (arr2 f64 * arr1 f64)) : bool := match r with Ok _ => true | Err _ => false end.

(*% lam = 2, L = 5: the filters exist, the hypotheses hold, and psi[1, 3] is in the support *)
Lemma toy_normalised : normalised toy_exp (fint 2).
Proof.
  assert (E' : okres (flt (fint 0)) (part_scaling_fn_fp toy_exp (fdiv (fint 1) (fint 2)) (fint 1) 300 (fint 2)) = true)
    by vm_cast_no_check (eq_refl true).
  destruct (part_scaling_fn_fp toy_exp (fdiv (fint 1) (fint 2)) (fint 1) 300 (fint 2)) as [c|] eqn:EC; [|discriminate].
  exists (fdiv (fint 1) (fint 2)), c. split; [apply pydiv_ok; reflexivity|]. split; [exact EC|exact E'].
Qed.

(*@E C61_support_example *)
Lemma ex_fp_support : exists fexp fpow psi phi, increasing_powers fpow (fint 2) 3 /\ normalised fexp (fint 2) /\
  filters_axisym_vectorised_fp fexp fpow 3 5 0 (fint 2) = Ok (psi, phi) /\ get2 psi 1 3 <> fint 0 /\
  LN_j_fp fpow 5 1 1 (fint 2) true = Ok (4, 1, 1).
Proof.
  assert (E : okres (fun r => negb (feq (get2 (fst r) 1 3) (fint 0))) (filters_axisym_vectorised_fp toy_exp pow2 3 5 0 (fint 2)) = true)
    by vm_cast_no_check (eq_refl true).
  destruct (filters_axisym_vectorised_fp toy_exp pow2 3 5 0 (fint 2)) as [[psi phi]|] eqn:EF; [|discriminate].
  exists toy_exp, pow2, psi, phi. split; [apply pow2_incr; lia|]. split; [|split; [exact EF|split]].
  - exact toy_normalised.
  - intros G. cbn [okres fst] in E. rewrite G in E. discriminate.
  - assert (S : LN_j_fp pow2 5 1 1 (fint 2) true = LN_j 5 1 1 (IZR 2) true).
    { apply fp_sizes_int; try lia; [vm_compute; discriminate|]. intros i Hi. apply pow2_faithful. lia. }
    rewrite S. unfold LN_j, wav_j_bandlimit, L0_j. change (1 =? 0) with false. cbv iota. change (1 =? 0) with false. cbn [negb]. rewrite !pypow_pos by lra. cbn [bind].
    change (1 - 1) with 0. change (1 + 1) with 2.
    rewrite (pw_IZR 2 2), (pw_IZR 2 0) by lia.
    unfold rceil. rewrite !Zceil_IZR. reflexivity.
Qed.

(*@E C61_sizes_example *)
Lemma ex_fp_sizes : exists fpow, forall j, -1074 <= j < 1024 -> faithful_power fpow (fint 2) j.
Proof. exists pow2. exact pow2_faithful. Qed.

(** lam = 4642204239785223 / 2^50, the float nearest to the square root of 17 *)
Definition sqrt17 : f64 := binary_normalize 53 1024 gt53 lt53 mode_NE 4642204239785223 (-50) false.
Lemma sqrt17_val : B2R sqrt17 = (4642204239785223 / 1125899906842624)%R.
Proof.
  assert (EF : B2SF sqrt17 = SpecFloat.S754_finite false 4642204239785223 (-50)) by (vm_compute; reflexivity).
  destruct sqrt17 as [| | |s' m' e' H']; try discriminate. cbn in EF. injection EF as -> -> ->.
  cbn [B2R]. unfold F2R. cbn. lra.
Qed.
Lemma sq17 : (17 < powerRZ (4642204239785223 / 1125899906842624) 2 < 17 + / 1125899906842624)%R.
Proof.
  set (x := (4642204239785223 / 1125899906842624)%R). change (powerRZ x 2) with (x * (x * 1))%R. unfold x. lra.
Qed.
Lemma dn17 : round radix2 (FLT_exp (-1074) 53) Zfloor (powerRZ (B2R sqrt17) 2) = 17%R.
Proof.
  rewrite sqrt17_val. set (p := powerRZ _ 2). assert (Hp := sq17). fold p in Hp.
  assert (M : mag radix2 p = 5 :> Z). { apply mag_unique_pos. change (bpow radix2 (5 - 1)) with 16%R. change (bpow radix2 5) with 32%R. lra. }
  unfold round, scaled_mantissa, cexp. rewrite M. change (FLT_exp (-1074) 53 5) with (-48). change (- -48) with 48.
  replace (Zfloor (p * bpow radix2 48)) with (17 * 2 ^ 48).
  - unfold F2R. cbn [Fnum Fexp]. change (bpow radix2 (-48)) with (/ 281474976710656)%R. change (17 * 2 ^ 48) with 4785074604081152. lra.
  - symmetry. apply Zfloor_imp. change (bpow radix2 48) with 281474976710656%R. change (17 * 2 ^ 48 + 1) with 4785074604081153.
    change (17 * 2 ^ 48) with 4785074604081152. lra.
Qed.

(*% the off-by-one does occur: at lam = sqrt(17) rounded to binary64, scale 1 has computed band-limit 17, exact band-limit 18 *)
(*@ C61_off_by_one_occurs *)
Lemma fp_off_by_one : exists lam fpow, is_finite lam = true /\ faithful_power fpow lam 2 /\
  wav_j_bandlimit 100 1 (B2R lam) true = Ok 18 /\ wav_j_bandlimit_fp fpow 100 1 lam true = Ok 17.
Proof.
  exists sqrt17, (fun _ _ => fint 17). split; [vm_compute; reflexivity|]. split; [|split].
  - split; [apply fint_fin; lia|]. cbv zeta. left. rewrite dn17. apply (fint_B2R 17). lia.
  - unfold wav_j_bandlimit. cbn [Z.eqb]. change (1 + 1) with 2. rewrite pypow_pos by (rewrite sqrt17_val; lra). cbn [bind].
    rewrite sqrt17_val. replace (rceil (powerRZ (4642204239785223 / 1125899906842624) 2)) with 18; [reflexivity|].
    symmetry. apply Zceil_imp. assert (Hp := sq17). change (18 - 1) with 17. lra.
  - unfold wav_j_bandlimit_fp. cbn [Z.eqb]. rewrite fceil_ok by (apply fint_fin; lia). cbn [bind].
    rewrite fint_B2R by lia. unfold rceil. rewrite Zceil_IZR. reflexivity.
Qed.

(*% ** C62: admissibility *)

Lemma find_scale (fpow : f64 -> Z -> f64) lam l J : forall n : nat, (IZR l < B2R (fpow lam (Z.of_nat n - 1)%Z))%R -> Z.of_nat n - 1 <= J ->
  (IZR l < B2R (fpow lam (-1)%Z))%R \/
  exists j0, 0 <= j0 <= J /\ (B2R (fpow lam (j0 - 1)%Z) <= IZR l < B2R (fpow lam j0))%R.
Proof.
  induction n as [|n IH]; intros H Hn; [left; exact H|].
  replace (Z.of_nat (S n) - 1) with (Z.of_nat n) in * by lia.
  destruct (Rlt_or_le (IZR l) (B2R (fpow lam (Z.of_nat n - 1)%Z))) as [G|G]; [apply IH; auto; lia|].
  right. exists (Z.of_nat n). split; [lia|]. split; assumption.
Qed.

(** a column of k_lam: zeros, one entry, ones *)
Lemma column fexp fpow J L lam k l : k_lam_fp fexp fpow J L lam 300 = Ok k -> L <= 2 ^ 53 -> increasing_powers fpow lam J ->
  normalised fexp lam -> (IZR L <= B2R (fpow lam J))%R -> 0 <= J -> 0 <= l < L ->
  exists j0, -1 <= j0 <= J /\
    (forall j, 0 <= j < J + 2 -> j < j0 -> get2 k j l = fint 0) /\
    (forall j, 0 <= j < J + 2 -> j0 < j -> get2 k j l = fint 1).
Proof.
  intros Hk HL HP HN HJ HJ0 Hl.
  assert (K0 := kl_zero _ _ _ _ _ _ Hk HL HP HN). assert (K1 := kl_one _ _ _ _ _ _ Hk HL HP). assert (M := pow_le _ _ _ HP).
  assert (Hl' : (IZR l < B2R (fpow lam J))%R) by (apply Rlt_le_trans with (2 := HJ), IZR_lt; lia).
  destruct (find_scale fpow lam l J (Z.to_nat (J + 1))) as [G|(j0 & Hj0 & G1 & G2)].
  - replace (Z.of_nat (Z.to_nat (J + 1)) - 1) with J by lia. exact Hl'.
  - lia.
  - exists (-1). split; [lia|]. split; [lia|]. intros j Hj _. apply K1; auto.
    apply Rlt_le_trans with (1 := G), M; lia.
  - exists j0. split; [lia|]. split; intros j Hj Hlt.
    + apply K0; auto. apply Rle_trans with (2 := G1), M; lia.
    + apply K1; auto. apply Rlt_le_trans with (1 := G2), M; lia.
Qed.

Definition sq (x : f64) : R := (B2R x ^ 2)%R.
Lemma sq0 : sq (fint 0) = 0%R. Proof. unfold sq. rewrite (fint_B2R 0) by lia. ring. Qed.

Lemma sqrt1_B2R : B2R (fsqrt (fint 1)) = 1%R.
Proof. destruct (fsqrt_ok (fint 1) eq_refl) as [_ ->]; rewrite one_B2R; [lra|]. rewrite sqrt_1. apply (rnd_Z 1). lia. Qed.

(** the sum of squares in terms of the one free entry *)
Lemma total_val k psi phi J_min J l j0 : 0 <= J_min < J -> -1 <= j0 <= J ->
  (forall j, 0 <= j < J + 2 -> j < j0 -> get2 k j l = fint 0) ->
  (forall j, 0 <= j < J + 2 -> j0 < j -> get2 k j l = fint 1) ->
  (forall j, J_min <= j <= J -> get2 psi j l = fsqrt (fclip (fsub (get2 k (j + 1) l) (get2 k j l)))) ->
  get1 phi l = fsqrt (get2 k J_min l) ->
  (j0 < J_min /\ fp_total psi phi J_min J l = 1%R) \/
  (J_min <= j0 /\ let v := get2 k j0 l in
   fp_total psi phi J_min J l = (sq (fsqrt v) + sq (fsqrt (fclip (fsub (fint 1) v))))%R) \/
  (J_min <= j0 /\ let v := get2 k j0 l in
   fp_total psi phi J_min J l = (sq (fsqrt (fclip (fsub v (fint 0)))) + sq (fsqrt (fclip (fsub (fint 1) v))))%R).
Proof.
  intros HJ Hj0 K0 K1 HA HB.
  assert (Z : forall j, J_min <= j <= J -> j <> j0 -> j <> j0 - 1 -> B2R (get2 psi j l) = 0%R).
  { intros j Hj N1 N2. rewrite HA by auto. destruct (Z_lt_le_dec j j0).
    - rewrite (K0 j), (K0 (j + 1)) by lia. rewrite fsub00, fclip0, fsqrt0. apply (fint_B2R 0). lia.
    - rewrite (K1 j), (K1 (j + 1)) by lia. rewrite fsub11, fclip0, fsqrt0. apply (fint_B2R 0). lia. }
  unfold fp_total. destruct (Z_lt_le_dec j0 J_min) as [G|G].
  - left. split; [lia|]. rewrite zrsum_zero by (intros i Hi; rewrite Z by lia; ring).
    rewrite HB, (K1 J_min) by lia. rewrite sqrt1_B2R. ring.
  - right. destruct (Z.eq_dec j0 J_min) as [->|N].
    + left. split; [lia|]. cbv zeta. rewrite (zrsum_single _ _ 0); [|lia|].
      * replace (J_min + 0) with J_min by lia. rewrite HA, HB, (K1 (J_min + 1)) by lia. reflexivity.
      * intros i Hi Ni. rewrite Z by lia. ring.
    + right. split; [lia|]. cbv zeta. rewrite HB, (K0 J_min) by lia. rewrite fsqrt0. change (B2R (fint 0) ^ 2)%R with (sq (fint 0)). rewrite sq0.
      set (f := fun i => (B2R (get2 psi (J_min + i) l) ^ 2)%R).
      set (a := j0 - 1 - J_min).
      rewrite (zrsum_ext _ f (fun i => (if i =? a then f a else 0) + (if i =? a + 1 then f (a + 1)%Z else 0))%R).
      * rewrite <- zrsum_add. rewrite (zrsum_single _ _ a), (zrsum_single _ _ (a + 1)).
        -- rewrite !Z.eqb_refl. unfold f, a. replace (J_min + (j0 - 1 - J_min)) with (j0 - 1) by lia.
           replace (J_min + (j0 - 1 - J_min + 1)) with j0 by lia. rewrite !HA by lia.
           replace (j0 - 1 + 1) with j0 by lia. rewrite (K0 (j0 - 1)), (K1 (j0 + 1)) by lia. unfold sq. ring.
        -- unfold a. lia.
        -- intros i Hi Ni. destruct (Z.eqb_spec i (a + 1)); [contradiction|reflexivity].
        -- unfold a. lia.
        -- intros i Hi Ni. destruct (Z.eqb_spec i a); [contradiction|reflexivity].
      * intros i Hi. destruct (Z.eqb_spec i a) as [->|N1]; [destruct (Z.eqb_spec a (a + 1)); [lia|]; ring|].
        destruct (Z.eqb_spec i (a + 1)) as [->|N2]; [ring|]. unfold f. rewrite Z by (unfold a in *; lia). ring.
Qed.

(** an entry and its complement *)
Lemma pair_le1 (v : f64) A : is_finite v = true -> (0 <= B2R v <= 1)%R -> (Rabs (A - B2R v) <= (2 * eps + eps * eps) * B2R v)%R ->
  (Rabs (A + sq (fsqrt (fclip (fsub (fint 1) v))) - 1) <= 4 * eps)%R.
Proof.
  intros F Hv HA. destruct (fsub_1v v F) as [Fd Ed]; [lra|]. set (d := fsub (fint 1) v) in *.
  pose proof (fclip_sqrt d Fd) as G. cbv zeta in G. change (B2R (fsqrt (fclip d)) ^ 2)%R with (sq (fsqrt (fclip d))) in G.
  assert (D1 : (Rabs (B2R d - (1 - B2R v)) <= eps)%R) by (rewrite Ed; apply rnd_abs1; apply Rabs_le; lra).
  assert (D0 : (0 <= B2R d)%R) by (rewrite Ed; rewrite <- (rnd_Z 0) by lia; apply rnd_mono; lra).
  rewrite Rmax_right in G by exact D0.
  assert (He : (0 < eps < / 1000)%R) by (unfold eps; lra).
  apply Rabs_le_inv in HA. apply Rabs_le_inv in G. apply Rabs_le_inv in D1. set (B := sq _) in *.
  apply Rabs_le. split; nra.
Qed.
Lemma pair_gt1 (v : f64) A : is_finite v = true -> (1 < B2R v)%R -> (Rabs (A - B2R v) <= (2 * eps + eps * eps) * B2R v)%R ->
  (Rabs (A + sq (fsqrt (fclip (fsub (fint 1) v))) - B2R v) <= 4 * eps * B2R v)%R.
Proof.
  intros F Hv HA. destruct (fsub_1v v F) as [Fd Ed]; [lra|]. set (d := fsub (fint 1) v) in *.
  pose proof (fclip_sqrt d Fd) as G. cbv zeta in G. change (B2R (fsqrt (fclip d)) ^ 2)%R with (sq (fsqrt (fclip d))) in G.
  assert (D0 : (B2R d <= 0)%R) by (rewrite Ed; rewrite <- (rnd_Z 0) by lia; apply rnd_mono; lra).
  rewrite Rmax_left in G by exact D0.
  assert (He : (0 < eps < / 1000)%R) by (unfold eps; lra).
  apply Rabs_le_inv in HA. apply Rabs_le_inv in G. set (B := sq _) in *.
  apply Rabs_le. split; nra.
Qed.
Lemma first_err (v : f64) A : is_finite v = true -> (0 <= B2R v)%R -> A = sq (fsqrt v) \/ A = sq (fsqrt (fclip (fsub v (fint 0)))) ->
  (Rabs (A - B2R v) <= (2 * eps + eps * eps) * B2R v)%R.
Proof.
  intros F H [-> | ->]; unfold sq.
  - destruct (fsqrt_ok v F H) as [_ ->]. apply sqrt_sq; auto.
  - destruct (fsub_v0 v F) as [F' E']. pose proof (fclip_sqrt _ F') as G. cbv zeta in G. rewrite E', Rmax_right in G by exact H. exact G.
Qed.
Lemma eps4 : (4 * eps)%R = bpow radix2 (-51).
Proof. change (bpow radix2 (-51)) with (/ 2251799813685248)%R. unfold eps. lra. Qed.

(*% when the computed generating function lies in [0, 1], the squares of the computed filters sum to 1 within 2^-51 *)
(*@ C62_admissible_up_to_rounding *)
Lemma fp_admissible : forall fexp fpow J L J_min lam psi phi k l, L <= 2 ^ 53 ->
  increasing_powers fpow lam J -> (IZR L <= B2R (fpow lam J))%R -> normalised fexp lam ->
  filters_axisym_fp fexp fpow J L J_min lam = Ok (psi, phi) \/
  filters_axisym_vectorised_fp fexp fpow J L J_min lam = Ok (psi, phi) ->
  k_lam_fp fexp fpow J L lam 300 = Ok k -> 0 <= l < L ->
  (forall j, J_min <= j <= J -> is_finite (get2 k j l) = true /\ (0 <= B2R (get2 k j l) <= 1)%R) ->
  (Rabs (fp_total psi phi J_min J l - 1) <= bpow radix2 (-51))%R.
Proof.
  intros fexp fpow J L J_min lam psi phi k l HL HP HJL HN HF Hk Hl HV. rewrite <- eps4.
  assert (He : (0 < eps < / 1000)%R) by (unfold eps; lra).
  assert (HJ : 0 <= J_min < J) by (destruct (psi_fp _ _ _ _ _ _ _ _ HF); assumption).
  destruct (column _ _ _ _ _ _ l Hk HL HP HN HJL) as (j0 & Hj0 & K0 & K1); [lia|exact Hl|].
  assert (HA : (forall j, J_min <= j <= J -> get2 psi j l = fsqrt (fclip (fsub (get2 k (j + 1) l) (get2 k j l)))) /\
               get1 phi l = fsqrt (get2 k J_min l)).
  { destruct HF as [HF|HF].
    - apply loop_fp_inv in HF as (_ & k' & Hk' & _ & _ & _ & A & _ & D). rewrite Hk in Hk'. injection Hk' as <-.
      split; [|auto]. intros j Hj.
      assert (G : flt (fsub (get2 k (j + 1) l) (get2 k j l)) (fint 0) = false).
      { assert (P : forall d, is_finite d = true -> (0 <= B2R d)%R -> flt d (fint 0) = false)
          by (intros d Fd Hd; apply flt_false; [exact Fd|reflexivity|change (B2R (fint 0)) with 0%R; exact Hd]).
        destruct (Z_lt_le_dec (j + 1) j0); [rewrite (K0 j), (K0 (j + 1)) by lia; reflexivity|].
        destruct (Z_lt_le_dec j0 j); [rewrite (K1 j), (K1 (j + 1)) by lia; reflexivity|].
        destruct (Z.eq_dec j j0) as [->|].
        - rewrite (K1 (j0 + 1)) by lia. destruct (HV j0 ltac:(lia)) as [F V].
          destruct (fsub_1v _ F) as [F' E']; [lra|]. apply P; [exact F'|]. rewrite E'. rewrite <- (rnd_Z 0) by lia. apply rnd_mono. lra.
        - rewrite (K0 j) by lia. destruct (HV (j + 1) ltac:(lia)) as [F V].
          destruct (fsub_v0 _ F) as [F' E']. apply P; [exact F'|]. lra. }
      rewrite A by auto. unfold fclip. rewrite G. reflexivity.
    - apply vec_fp_inv in HF as (_ & k' & Hk' & _ & _ & _ & A & D). rewrite Hk in Hk'. injection Hk' as <-.
      split; [|auto]. intros j Hj. apply A; lia. }
  destruct HA as [HA HB].
  destruct (total_val k psi phi J_min J l j0 HJ Hj0 K0 K1 HA HB) as [[_ ->]|[[G ->]|[G ->]]].
  - replace (1 - 1)%R with 0%R by ring. rewrite Rabs_R0. lra.
  - destruct (HV j0 ltac:(lia)) as [F V]. apply pair_le1; auto. apply first_err; auto; lra.
  - destruct (HV j0 ltac:(lia)) as [F V]. apply pair_le1; auto. apply first_err; auto; lra.
Qed.

(*% in general the vectorised filters sum to the largest entry of the column, if that exceeds 1 *)
(*@ C62_excess_is_quadrature *)
Lemma fp_excess : forall fexp fpow J L J_min lam psi phi k l, L <= 2 ^ 53 ->
  increasing_powers fpow lam J -> (IZR L <= B2R (fpow lam J))%R -> normalised fexp lam ->
  filters_axisym_vectorised_fp fexp fpow J L J_min lam = Ok (psi, phi) ->
  k_lam_fp fexp fpow J L lam 300 = Ok k -> 0 <= l < L ->
  (forall j, J_min <= j <= J -> is_finite (get2 k j l) = true /\ (0 <= B2R (get2 k j l))%R) ->
  ((forall j, J_min <= j <= J -> (B2R (get2 k j l) <= 1)%R) /\
   (Rabs (fp_total psi phi J_min J l - 1) <= bpow radix2 (-51))%R) \/
  exists j, J_min <= j <= J /\ (1 < B2R (get2 k j l))%R /\
    (Rabs (fp_total psi phi J_min J l - B2R (get2 k j l)) <= bpow radix2 (-51) * B2R (get2 k j l))%R.
Proof.
  intros fexp fpow J L J_min lam psi phi k l HL HP HJL HN HF Hk Hl HV.
  assert (HJ : 0 <= J_min < J) by (destruct (psi_fp _ _ _ _ _ _ _ _ (or_intror HF)); assumption).
  destruct (column _ _ _ _ _ _ l Hk HL HP HN HJL) as (j0 & Hj0 & K0 & K1); [lia|exact Hl|].
  assert (HW : (forall j, J_min <= j <= J -> (B2R (get2 k j l) <= 1)%R) \/
               (J_min <= j0 /\ (1 < B2R (get2 k j0 l))%R)).
  { destruct (Z_lt_le_dec j0 J_min) as [G|G].
    - left. intros j Hj. rewrite K1 by lia. rewrite one_B2R. lra.
    - destruct (Rle_or_lt (B2R (get2 k j0 l)) 1) as [Q|Q]; [|auto]. left. intros j Hj.
      destruct (Z.eq_dec j j0) as [->|]; [exact Q|]. destruct (Z_lt_le_dec j j0).
      + rewrite K0 by lia. rewrite (fint_B2R 0) by lia. lra.
      + rewrite K1 by lia. rewrite one_B2R. lra. }
  destruct HW as [HW|[G Q]].
  - left. split; [exact HW|]. eapply fp_admissible; eauto. intros j Hj. destruct (HV j Hj) as [F V]. split; auto.
  - right. exists j0. split; [lia|]. split; [exact Q|]. rewrite <- eps4.
    apply vec_fp_inv in HF as (_ & k' & Hk' & _ & _ & _ & A & D). rewrite Hk in Hk'. injection Hk' as <-.
    destruct (HV j0 ltac:(lia)) as [F V].
    destruct (total_val k psi phi J_min J l j0 HJ Hj0 K0 K1) as [[? _]|[[_ ->]|[_ ->]]]; try lia.
    + intros j Hj. apply A; lia.
    + apply D; exact Hl.
    + apply pair_gt1; auto. apply first_err; auto; lra.
    + apply pair_gt1; auto. apply first_err; auto; lra.
Qed.

(** finite, between 0 and 1 *)
Definition unitb (x : f64) : bool := is_finite x && negb (flt x (fint 0)) && negb (flt (fint 1) x).
Lemma unitb_ok x : unitb x = true -> is_finite x = true /\ (0 <= B2R x <= 1)%R.
Proof.
  unfold unitb. rewrite !andb_true_iff, !negb_true_iff. intros [[F A] B]. split; [exact F|].
  split.
  - destruct (Rlt_or_le (B2R x) 0) as [G|G]; [|exact G].
    rewrite (flt_true x (fint 0)) in A; [discriminate|exact F|reflexivity|]. rewrite (fint_B2R 0) by lia. exact G.
  - destruct (Rlt_or_le 1 (B2R x)) as [G|G]; [|exact G].
    rewrite (flt_true (fint 1) x) in B; [discriminate|reflexivity|exact F|]. rewrite one_B2R. exact G.
Qed.

(*@E C62_example *)
Lemma ex_fp_adm : exists fexp fpow psi phi k, increasing_powers fpow (fint 2) 3 /\ (IZR 5 <= B2R (fpow (fint 2) 3%Z))%R /\
  normalised fexp (fint 2) /\ filters_axisym_vectorised_fp fexp fpow 3 5 0 (fint 2) = Ok (psi, phi) /\
  k_lam_fp fexp fpow 3 5 (fint 2) 300 = Ok k /\
  (forall j l, 0 <= j <= 3 -> 0 <= l < 5 -> is_finite (get2 k j l) = true /\ (0 <= B2R (get2 k j l) <= 1)%R) /\
  get2 k 2 3 <> fint 1 /\ get2 k 2 3 <> fint 0.
Proof.
  assert (E : okres (fun k => forallb (fun j => forallb (fun l => unitb (get2 k j l)) [0; 1; 2; 3; 4]) [0; 1; 2; 3] &&
                              negb (feq (get2 k 2 3) (fint 1)) && negb (feq (get2 k 2 3) (fint 0)))
              (k_lam_fp toy_exp pow2 3 5 (fint 2) 300) = true) by vm_cast_no_check (eq_refl true).
  destruct (k_lam_fp toy_exp pow2 3 5 (fint 2) 300) as [k|] eqn:EK; [|discriminate]. cbn [okres] in E.
  assert (E2 : okres (fun _ => true) (filters_axisym_vectorised_fp toy_exp pow2 3 5 0 (fint 2)) = true)
    by vm_cast_no_check (eq_refl true).
  destruct (filters_axisym_vectorised_fp toy_exp pow2 3 5 0 (fint 2)) as [[psi phi]|] eqn:EF; [|discriminate].
  apply andb_true_iff in E as [E G2]. apply andb_true_iff in E as [E G1].
  exists toy_exp, pow2, psi, phi, k. split; [apply pow2_incr; lia|]. split; [|split; [|split; [exact EF|split; [exact EK|split; [|split]]]]].
  - destruct (pow2_ok (fint 2) 3) as [_ ->]; [lia|]. change (bpow radix2 3) with 8%R. lra.
  - exact toy_normalised.
  - intros j l Hj Hl. apply unitb_ok. rewrite forallb_forall in E. specialize (E j ltac:(cbn [In]; lia)).
    rewrite forallb_forall in E. apply E. cbn [In]. lia.
  - intros H. clear - G1 H. rewrite H in G1. vm_compute in G1. discriminate.
  - intros H. clear - G2 H. rewrite H in G2. vm_compute in G2. discriminate.
Qed.
