(** Statements and proofs for PropertiesFloatLoop.v *)

From Coq Require Import ZArith Reals List Bool Lia Lra Psatz.
From Coquelicot Require Import Rcomplements Complex.
From Flocq Require Import Core Relative IEEE754.BinarySingleNaN.
From Verif Require Import Py PyFacts ModelSamples SamplesFacts ModelFilters ModelTransforms FiltersFacts AxisymFacts DirectionFacts DirFilterFacts
  Spec SpecTransforms SpecQuad FiltersProps.
From Verif Require Import ModelFloat ModelFloatDir ModelFloatTrans FloatProps SpecFp SpecFpDir SpecFpTrans ModelFloatJax SpecFpJax FloatFilterProps FloatDefault FloatAccProps FloatDirFacts FloatDirProps
  FloatDirFilterProps FloatTransProps SamplesProps.
From Verif Require Import FloatFacts.
Import ListNotations.
Open Scope Z_scope.

(*T Looped and vectorised filters in binary64 *)
(*! From Coq Require Import ZArith Reals List Bool. *)
(*! From Coquelicot Require Import Complex. *)
(*! From Flocq Require Import Core IEEE754.BinarySingleNaN. *)
(*! Import ListNotations. *)
(*! From Verif Require Import Py ModelSamples ModelFilters ModelFloat ModelFloatDir ModelFloatTrans ModelFloatJax Spec SpecTransforms SpecQuad SpecFp SpecFpDir SpecFpTrans SpecFpJax. *)

Lemma fmul_comm x y : fmul x y = fmul y x.
Proof.
  unfold fmul. destruct x as [a|a| |a m e H], y as [b|b| |b m' e' H']; try reflexivity; try (cbn; now rewrite xorb_comm).
  apply B2SF_inj. cbn [Bmult]. rewrite !B2SF_SF2B. now rewrite xorb_comm, Pos.mul_comm, Z.add_comm.
Qed.

(*% ** C79: the looped and the vectorised filters agree in binary64 *)

(*% axisymmetric filters, bit for bit, for every library and dilation, wherever the computed table of k_lam does not decrease with the scale; *)
(*% where it does the vectorised filter is zero and the looped one repeats the preceding multipole *)
(*@ C79_axisymmetric_filters *)
Lemma lv_axi : forall fexp fpow J L J_min lam k psi phi psi' phi',
  k_lam_fp fexp fpow J L lam 300 = Ok k ->
  filters_axisym_fp fexp fpow J L J_min lam = Ok (psi, phi) ->
  filters_axisym_vectorised_fp fexp fpow J L J_min lam = Ok (psi', phi') ->
  rows psi = rows psi' /\ cols psi = cols psi' /\ len1 phi = len1 phi' /\
  forall l, 0 <= l < L ->
    get1 phi l = get1 phi' l /\
    (forall j, J_min <= j <= J -> let d := fsub (get2 k (j + 1) l) (get2 k j l) in
       (flt d (fint 0) = false -> get2 psi j l = get2 psi' j l) /\
       (flt d (fint 0) = true -> get2 psi' j l = fint 0 /\ (1 <= l -> get2 psi j l = get2 psi j (l - 1)))) /\
    (forall j, 0 <= j < J_min -> get2 psi j l = fint 0).
Proof.
  intros fexp fpow J L J_min lam k psi phi psi' phi' Ek E1 E2. pose proof E1 as E0.
  apply loop_fp_inv in E1 as (HJ & k1 & Ek1 & R1 & C1 & L1 & A & A0 & D). apply vec_fp_inv in E2 as (_ & k2 & Ek2 & R2 & C2 & L2 & A' & D').
  assert (k1 = k) as -> by congruence. assert (k2 = k) as -> by congruence.
  split; [congruence|]. split; [congruence|]. split; [congruence|]. intros l Hl. split; [now rewrite D, D'|]. split.
  - intros j Hj d. split; intros N.
    + rewrite A', A by (auto; lia). fold d. unfold fclip. now rewrite N.
    + rewrite A' by lia. fold d. unfold fclip. rewrite N. split; [reflexivity|]. intros H1. exact (loop_fp_prev _ _ _ _ _ _ _ _ k E0 Ek j l Hj ltac:(lia) N).
  - intros j Hj. now apply A0.
Qed.

(*% for lam = 2 they are equal at the multipoles from 2^j on; below, where they are not equal, the vectorised filter is zero and the square of the looped one is within the quadrature error *)
(*@ C79_default_dilation *)
Lemma lv_axi2 : forall fexp fpow J L J_min psi phi psi' phi', 1 <= L <= 2 ^ 53 ->
  accurate_exp fexp -> exact_powers fpow J -> j_max L 2 = Ok J ->
  filters_axisym_fp fexp fpow J L J_min (fint 2) = Ok (psi, phi) ->
  filters_axisym_vectorised_fp fexp fpow J L J_min (fint 2) = Ok (psi', phi') ->
  forall j l, J_min <= j <= J -> 0 <= l < L ->
    get2 psi j l = get2 psi' j l \/
    (l < 2 ^ j /\ get2 psi' j l = fint 0 /\ is_finite (get2 psi j l) = true /\ (B2R (get2 psi j l) ^ 2 <= 2 * quad_error 2 300 + bpow radix2 (-33))%R).
Proof.
  intros fexp fpow J L J_min psi phi psi' phi' HL Hf HP EJ E1 E2 j l Hj Hl.
  pose proof E1 as E0. apply loop_fp_inv in E0 as (HJ & k & Ek & _).
  destruct (lv_axi fexp fpow J L J_min (fint 2) k psi phi psi' phi' Ek E1 E2) as (_ & _ & _ & H). destruct (H l Hl) as (_ & H' & _). destruct (H' j Hj) as [P Q].
  destruct (flt (fsub (get2 k (j + 1) l) (get2 k j l)) (fint 0)) eqn:N; [right|left; now apply P]. destruct (Q eq_refl) as [Q1 _].
  pose proof (k_lam_ok 2 ltac:(lra) L 300 J ltac:(lia) ltac:(lia) EJ) as Er.
  split; [|split; [exact Q1|]].
  { destruct (neg_d fexp fpow J L k _ HL Hf HP EJ Ek Er j l ltac:(lia) Hl N) as (Hlt & _). rewrite <- IZR_Zpower in Hlt by lia. now apply lt_IZR in Hlt. }
  destruct (fin2 fexp fpow J L J_min psi phi ltac:(lia) Hf HP EJ (or_introl E1)) as (_ & _ & F1 & _). split; [now apply F1|].
  pose proof (fp_copied fexp fpow J L J_min psi phi k HL Hf HP EJ E1 Ek ltac:(lia) j l Hj Hl N) as C.
  change (bpow radix2 (-33)) with (/ 8589934592)%R. assert (He : (0 < eps <= / 9007199254740992)%R) by (unfold eps; lra). lra.
Qed.

(*% directional filters: the scaling functions are the same up to the sign of zero, for every library, dilation and spin *)
(*@ C79_scaling_functions *)
Lemma lv_phi : forall fexp fpow flg J L N J_min lam spin psi phi psi' phi', 1 <= L <= 2 ^ 52 ->
  filters_directional_fp fexp fpow flg J L N J_min lam spin 0 = Ok (psi, phi) ->
  filters_directional_vectorised_fp fexp fpow flg J L N J_min lam spin 0 = Ok (psi', phi') ->
  len1 phi = len1 phi' /\ forall l, 0 <= l < L -> same64 (get1 phi l) (get1 phi' l).
Proof.
  intros fexp fpow flg J L N J_min lam spin psi phi psi' phi' HL E1 E2.
  pose proof E1 as X. unfold filters_directional_fp in X. apply bind_inv in X as (z & Z1 & X). apply bind_inv in X as (z' & Z2 & X).
  apply bind_inv in X as ([kpsi kphi] & EA & _). clear z z' Z1 Z2.
  pose proof E2 as X. unfold filters_directional_vectorised_fp in X. change (negb (0 =? 0)) with false in X. cbv iota in X. apply bind_inv in X as ([kpsi' kphi'] & EA' & _).
  destruct (axisym_fp_inv _ _ _ _ _ _ _ _ EA) as (HJ & Rp & Cp & Lp & _ & T). destruct (axisym_vec_fp_inv _ _ _ _ _ _ _ _ EA') as (_ & Rp' & Cp' & Lp' & _ & _).
  rewrite (dir_fp_ok fexp fpow flg J L N J_min lam spin 0 kpsi kphi) in E1; auto; try lia; try (eapply dir_fp_fits; [|eauto]; lia).
  rewrite (dir_vec_fp_ok fexp fpow flg J L N J_min lam spin kpsi' kphi') in E2; auto; try lia; try (eapply dir_fp_fits; [|eauto]; lia).
  apply Ok_inj in E1. apply Ok_inj in E2. assert (P1 := f_equal snd E1). assert (P2 := f_equal snd E2). cbn [snd] in P1, P2. clear E1 E2. subst phi phi'.
  split; [reflexivity|]. intros l Hl. rewrite !get1_mk by lia.
  assert (EK : get1 kphi l = get1 kphi' l).
  { pose proof EA as X. apply loop_fp_inv in X as (_ & k & Ek & _). destruct (lv_axi _ _ _ _ _ _ _ _ _ _ _ Ek EA EA') as (_ & _ & _ & H). now apply H. }
  unfold phif, phiv. rewrite <- EK. destruct (el_min spin 0 <=? l); cbn [andb]; [|now left]. change (0 =? 0) with true. cbv iota zeta.
  destruct (feq (get1 kphi l) (fint 0)) eqn:F0; cbn [negb]; [right|left; apply fmul_comm].
  assert (Zk : exists s, get1 kphi l = B754_zero s).
  { destruct (get1 kphi l) as [s|s| |s m e H]; [now exists s|destruct s; discriminate F0|discriminate F0|exfalso].
    apply (feq_iff (B754_finite s m e H) (fint 0) eq_refl eq_refl) in F0. change (B2R (fint 0)) with 0%R in F0. revert F0. apply F2R_neq_0. destruct s; discriminate. }
  destruct Zk as [s ->]. exists false. destruct (cphi_fa l ltac:(lia)) as [Fw _].
  destruct (scal_weight_fp l) as [t|t| |t m e H]; try discriminate Fw; eexists; split; reflexivity.
Qed.

Lemma kin fexp fpow flg J L N J_min lam spin psi phi : filters_directional_fp fexp fpow flg J L N J_min lam spin 0 = Ok (psi, phi) ->
  exists kpsi kphi, filters_axisym_fp fexp fpow J L J_min lam = Ok (kpsi, kphi).
Proof.
  intros X. unfold filters_directional_fp in X. apply bind_inv in X as (z & Z1 & X). apply bind_inv in X as (z' & Z2 & X).
  apply bind_inv in X as ([kpsi kphi] & EA & _). eauto.
Qed.
Lemma kinv fexp fpow flg J L N J_min lam spin psi phi : filters_directional_vectorised_fp fexp fpow flg J L N J_min lam spin 0 = Ok (psi, phi) ->
  exists kpsi kphi, filters_axisym_vectorised_fp fexp fpow J L J_min lam = Ok (kpsi, kphi).
Proof.
  intros X. unfold filters_directional_vectorised_fp in X. change (negb (0 =? 0)) with false in X. cbv iota in X. apply bind_inv in X as ([kpsi' kphi'] & EA' & _). eauto.
Qed.

(*% the wavelets: the square roots of the two weights are rounded differently, so they agree to 2^-48 *)
(*@ C79_wavelets *)
Lemma lv_psi : forall fexp fpow flg J L N J_min lam spin k psi phi psi' phi', 1 <= L <= 2 ^ 52 -> 1 <= N <= 41 ->
  accurate_loggamma flg -> relative_exp fexp ->
  k_lam_fp fexp fpow J L lam 300 = Ok k ->
  filters_directional_fp fexp fpow flg J L N J_min lam spin 0 = Ok (psi, phi) ->
  filters_directional_vectorised_fp fexp fpow flg J L N J_min lam spin 0 = Ok (psi', phi') ->
  shape3 psi = shape3 psi' /\
  forall j l m, J_min <= j <= J -> 0 <= l < L -> Z.abs m < L ->
    let z := get3 psi j l (L - 1 + m) in let z' := get3 psi' j l (L - 1 + m) in
    let d := fsub (get2 k (j + 1) l) (get2 k j l) in
    (is_finite d = true -> flt d (fint 0) = false ->
       finite64 z /\ finite64 z' /\ (Cmod (cval z - cval z')%C <= bpow radix2 (-48) * Cmod (cval z'))%R) /\
    (flt d (fint 0) = true -> cval z' = RtoC 0).
Proof.
  intros fexp fpow flg J L N J_min lam spin k psi phi psi' phi' HL HN Hg He Ek E1 E2.
  destruct (kin _ _ _ _ _ _ _ _ _ _ _ E1) as (kpsi & kphi & EA). destruct (kinv _ _ _ _ _ _ _ _ _ _ _ E2) as (kpsi' & kphi' & EA').
  pose proof (near_loop fexp fpow flg Hg He J L N J_min lam spin HL HN kpsi kphi psi phi EA E1) as [_ NL].
  pose proof (near_vec fexp fpow flg Hg He J L N J_min lam spin HL HN kpsi' kphi' psi' phi' EA' E2) as [_ NV].
  destruct (lv_axi _ _ _ _ _ _ _ _ _ _ _ Ek EA EA') as (_ & _ & _ & H).
  destruct (axisym_fp_inv _ _ _ _ _ _ _ _ EA) as (HJ & Rp & Cp & Lp & _ & T). destruct (axisym_vec_fp_inv _ _ _ _ _ _ _ _ EA') as (_ & Rp' & Cp' & Lp' & _ & _).
  assert (Q1 := E1). assert (Q2 := E2).
  rewrite (dir_fp_ok fexp fpow flg J L N J_min lam spin 0 kpsi kphi) in Q1; auto; try lia; try (left; lia).
  rewrite (dir_vec_fp_ok fexp fpow flg J L N J_min lam spin kpsi' kphi') in Q2; auto; try lia; try (left; lia).
  apply Ok_inj in Q1. apply Ok_inj in Q2. assert (P1 := f_equal fst Q1). assert (P2 := f_equal fst Q2). cbn [fst] in P1, P2. clear Q1 Q2.
  split; [now rewrite <- P1, <- P2|]. intros j l m Hj Hl Hm z z' d. destruct (H l Hl) as (_ & H' & _). destruct (H' j Hj) as [Ha Hb]. fold d in Ha, Hb.
  destruct (Z_lt_le_dec l (Z.abs spin)) as [Hs|Hs].
  - assert (Z1 : z = creal (fint 0)) by (unfold z; rewrite <- P1, get3_mk by lia; unfold psif; replace (el_min spin 0 <=? l) with false by (unfold el_min; zb); now rewrite andb_false_r).
    assert (Z2 : z' = creal (fint 0)) by (unfold z'; rewrite <- P2, get3_mk by lia; unfold psiv; replace (el_min spin 0 <=? l) with false by (unfold el_min; zb); reflexivity).
    rewrite Z1, Z2. split; [|intros _; reflexivity]. intros _ _. split; [now split|]. split; [now split|].
    change (cval (creal (fint 0))) with (RtoC 0). replace (RtoC 0 - RtoC 0)%C with (RtoC 0) by ring. rewrite Cmod_0. lra.
  - pose proof u1_pos. split.
    + intros Fd Nd. specialize (Ha Nd).
      assert (Fk : is_finite (get2 kpsi' j l) = true).
      { apply vec_fp_inv in EA' as (_ & k2 & Ek2 & _ & _ & _ & A' & _). assert (k2 = k) as -> by congruence. rewrite A' by lia. fold d. unfold fclip. rewrite Nd.
        apply fsqrt_ok; [exact Fd|]. apply (flt_false_inv _ (fint 0)) in Nd; [|exact Fd|reflexivity]. exact Nd. }
      destruct (NL j l m Hj ltac:(lia) Hm ltac:(rewrite Ha; exact Fk)) as (F1 & F2 & v & V & E). destruct (NV j l m ltac:(lia) ltac:(lia) Hm Fk) as (F1' & F2' & v' & V' & E').
      rewrite Ha in V. fold z in F1, F2, E. fold z' in F1', F2', E'. split; [now split|]. split; [now split|]. rewrite E, E'.
      pose proof (apx_trans _ _ _ _ _ V (apx_sym _ _ _ V')) as W. assert (U : (0 <= 13 / 2 * u1 + 13 / 2 * u1 <= / 2)%R) by (unfold u1, eps in *; lra). pose proof (apx_abs _ _ _ U W) as W'.
      replace (nu N * RtoC v - nu N * RtoC v')%C with (nu N * RtoC (v - v'))%C by (rewrite RtoC_minus; ring).
      rewrite !Cmod_mult, !Cmod_R, !Cmod_nu, !Rmult_1_l. rewrite (Rabs_pos_eq v') by exact (apx_nonneg _ _ _ V').
      eapply Rle_trans; [exact W'|]. apply Rmult_le_compat_r; [exact (apx_nonneg _ _ _ V')|]. change (bpow radix2 (-48)) with (/ 281474976710656)%R. unfold u1, eps. lra.
    + intros Nd. destruct (Hb Nd) as [Z0 _]. destruct (NV j l m ltac:(lia) ltac:(lia) Hm ltac:(rewrite Z0; reflexivity)) as (_ & _ & v' & V' & E'). fold z' in E'. rewrite E'.
      rewrite Z0 in V'. change (B2R (fint 0)) with 0%R in V'. replace (cpsi l * 0 * Cmod (sd N l m))%R with 0%R in V' by ring.
      assert (v' = 0%R) as ->; [|ring]. destruct V' as (_ & A & B). rewrite Rmult_0_l in A, B. lra.
Qed.

(*% for lam = 2, at every multipole from 2^j on *)
(*@ C79_default_dilation_wavelets *)
Lemma lv_psi2 : forall fexp fpow flg J L N J_min spin psi phi psi' phi', 1 <= L <= 2 ^ 52 -> 1 <= N <= 41 ->
  accurate_loggamma flg -> relative_exp fexp -> accurate_exp fexp -> exact_powers fpow J -> j_max L 2 = Ok J ->
  filters_directional_fp fexp fpow flg J L N J_min (fint 2) spin 0 = Ok (psi, phi) ->
  filters_directional_vectorised_fp fexp fpow flg J L N J_min (fint 2) spin 0 = Ok (psi', phi') ->
  forall j l m, J_min <= j <= J -> 2 ^ j <= l < L -> Z.abs m < L ->
    let z := get3 psi j l (L - 1 + m) in let z' := get3 psi' j l (L - 1 + m) in
    finite64 z /\ finite64 z' /\ (Cmod (cval z - cval z')%C <= bpow radix2 (-48) * Cmod (cval z'))%R.
Proof.
  intros fexp fpow flg J L N J_min spin psi phi psi' phi' HL HN Hg He Hf HP EJ E1 E2 j l m Hj Hl Hm.
  destruct (kin _ _ _ _ _ _ _ _ _ _ _ E1) as (kpsi & kphi & EA). pose proof EA as X. apply loop_fp_inv in X as (HJ & k & Ek & _).
  pose proof (k_lam_ok 2 ltac:(lra) L 300 J ltac:(lia) ltac:(lia) EJ) as Er. assert (P0 : 0 <= 2 ^ j) by (apply Z.pow_nonneg; lia).
  destruct (lv_psi fexp fpow flg J L N J_min (fint 2) spin k psi phi psi' phi' HL HN Hg He Ek E1 E2) as [_ H]. destruct (H j l m Hj ltac:(lia) Hm) as [A _]. apply A.
  - destruct (d_acc fexp fpow J L k _ ltac:(lia) Hf HP EJ Ek Er j l ltac:(lia) ltac:(lia)) as (F & _). exact F.
  - destruct (flt (fsub (get2 k (j + 1) l) (get2 k j l)) (fint 0)) eqn:Ng; [exfalso|reflexivity].
    destruct (neg_d fexp fpow J L k _ ltac:(lia) Hf HP EJ Ek Er j l ltac:(lia) ltac:(lia) Ng) as (Hlt & _). rewrite <- IZR_Zpower in Hlt by lia. apply lt_IZR in Hlt. change (Z.pow radix2 j) with (2 ^ j) in Hlt. lia.
Qed.

(*% with lam = 2, L = 5, N = 3 both implementations return, and the wavelet of scale 1 is near 1 at multipole 2 *)
(*@E C79_example *)
Lemma ex_c79 : exists fexp fpow flg kpsi kphi kpsi' kphi' psi phi psi' phi', accurate_loggamma flg /\ relative_exp fexp /\ accurate_exp fexp /\ exact_powers fpow 3 /\ j_max 5 2 = Ok 3 /\
  filters_axisym_fp fexp fpow 3 5 1 (fint 2) = Ok (kpsi, kphi) /\
  filters_axisym_vectorised_fp fexp fpow 3 5 1 (fint 2) = Ok (kpsi', kphi') /\
  filters_directional_fp fexp fpow flg 3 5 3 1 (fint 2) 0 0 = Ok (psi, phi) /\
  filters_directional_vectorised_fp fexp fpow flg 3 5 3 1 (fint 2) 0 0 = Ok (psi', phi') /\
  get2 kpsi 1 2 = get2 kpsi' 1 2 /\ (98 / 100 <= B2R (get2 kpsi 1 2) ^ 2)%R.
Proof.
  destruct j_max_5_2 as (EJ & _). pose proof (pow2_exact_powers 3 ltac:(lia)) as HP.
  destruct (fp2_dirf_total near_exp pow2 near_lg 3 5 3 1 0 0 ltac:(lia) ltac:(left; lia) ltac:(lia) HP) as [([psi phi] & E1) ([psi' phi'] & E2)].
  destruct (kin _ _ _ _ _ _ _ _ _ _ _ E1) as (kpsi & kphi & EA). destruct (kinv _ _ _ _ _ _ _ _ _ _ _ E2) as (kpsi' & kphi' & EA').
  assert (EQ : get2 kpsi 1 2 = get2 kpsi' 1 2).
  { destruct (lv_axi2 near_exp pow2 3 5 1 kpsi kphi kpsi' kphi' ltac:(lia) near_accurate HP EJ EA EA' 1 2 ltac:(lia) ltac:(lia)) as [X|[X _]]; [exact X|lia]. }
  exists near_exp, pow2, near_lg, kpsi, kphi, kpsi', kphi', psi, phi, psi', phi'.
  split; [apply near_loggamma|]. split; [apply near_relative|]. split; [apply near_accurate|]. split; [exact HP|]. split; [exact EJ|]. split; [exact EA|]. split; [exact EA'|].
  split; [exact E1|]. split; [exact E2|]. split; [exact EQ|]. rewrite EQ.
  destruct (fp2_vec_gen near_exp pow2 3 5 1 kpsi' kphi' ltac:(lia) near_accurate HP EJ EA' 2 ltac:(lia)) as [_ V]. specialize (V 1 ltac:(lia)).
  assert (P2 : powerRZ 2 (1 + 1) = 4%R) by (rewrite <- bpow2; reflexivity). assert (P1 : powerRZ 2 1 = 2%R) by (rewrite <- bpow2; reflexivity).
  rewrite P1, P2 in V.
  rewrite (QuadProps.gen_low 2), (QuadProps.gen_high 2) in V by lra. apply Rabs_le_inv in V. pose proof quad_err2.
  change (bpow radix2 (-34)) with (/ 17179869184)%R in V. lra.
Qed.
