(** Statements and proofs for PropertiesFloatThreeTrans.v *)

From Coq Require Import ZArith Reals List Bool Permutation Lia Lra.
From Flocq Require Import Core Relative IEEE754.BinarySingleNaN.
From Verif Require Import Py PyFacts ModelSamples SamplesFacts ModelFilters ModelTransforms Spec FiltersFacts DirectionFacts DirFilterFacts TransformsFacts BackendFacts RoundFacts.
From Verif Require Import ModelFloat ModelFloatDir ModelFloatTrans ModelFloatJaxFilt ModelFloatJax ModelFloatBack SpecFp SpecFpTrans SpecFpJax SpecFpBack SpecThree FloatProps FloatFacts FloatFilterProps
  FloatDirFilterProps FloatTransFacts FloatTransProps FloatJaxFacts FloatBackFacts FloatBackProps FloatJaxFiltProps FloatThreeProps.
Import ListNotations.
Open Scope Z_scope.

(*T The transforms with dilation 3 in binary64 *)
(*! From Coq Require Import ZArith Reals List Bool. *)
(*! From Flocq Require Import Core IEEE754.BinarySingleNaN. *)
(*! Import ListNotations. *)
(*! From Verif Require Import Py ModelSamples ModelFloat ModelFloatDir ModelFloatTrans ModelFloatJaxFilt ModelFloatJax ModelFloatBack SpecFp SpecFpTrans SpecFpJax SpecFpBack SpecThree. *)

(** ** operations on infinities and NaNs *)
Lemma nf_mul_l (x y : f64) : is_finite x = false -> is_finite (fmul x y) = false.
Proof. destruct x as [|[]| |]; try discriminate; intros _; destruct y as [[]|[]| |[]]; reflexivity. Qed.
Lemma nf_mul_r (x y : f64) : is_finite y = false -> is_finite (fmul x y) = false.
Proof. destruct y as [|[]| |]; try discriminate; intros _; destruct x as [[]|[]| |[]]; reflexivity. Qed.
Lemma nf_add_l (x y : f64) : is_finite x = false -> is_finite (fadd x y) = false.
Proof. destruct x as [|[]| |]; try discriminate; intros _; destruct y as [[]|[]| |[]]; reflexivity. Qed.
Lemma nf_add_r (x y : f64) : is_finite y = false -> is_finite (fadd x y) = false.
Proof. destruct y as [|[]| |]; try discriminate; intros _; destruct x as [[]|[]| |[]]; reflexivity. Qed.
Lemma nf_sub_l (x y : f64) : is_finite x = false -> is_finite (fsub x y) = false.
Proof. destruct x as [|[]| |]; try discriminate; intros _; destruct y as [[]|[]| |[]]; reflexivity. Qed.
Lemma nf_cmul_l (x y : c64) : is_finite (fst x) = false -> is_finite (fst (cmul x y)) = false.
Proof. intros H. unfold cmul. cbn [fst]. now apply nf_sub_l, nf_mul_l. Qed.
Lemma nf_cmul_r (x y : c64) : is_finite (fst y) = false -> is_finite (fst (cmul x y)) = false.
Proof. intros H. unfold cmul. cbn [fst]. now apply nf_sub_l, nf_mul_r. Qed.
Lemma nf_cadd_l (x y : c64) : is_finite (fst x) = false -> is_finite (fst (cadd x y)) = false.
Proof. intros H. unfold cadd. cbn [fst]. now apply nf_add_l. Qed.
Lemma nf_cadd_r (x y : c64) : is_finite (fst y) = false -> is_finite (fst (cadd x y)) = false.
Proof. intros H. unfold cadd. cbn [fst]. now apply nf_add_r. Qed.
Lemma adds_nf l x : adds l x -> forall y, In y l -> is_finite y = false -> is_finite x = false.
Proof.
  induction 1 as [|x|xs ys zs x y HX IHx HY IHy HP]; intros z Hz Fz; [easy| |].
  - destruct Hz as [->|[]]. exact Fz.
  - apply (Permutation_in _ (Permutation_sym HP)) in Hz. apply in_app_or in Hz as [Hz|Hz]; [apply nf_add_l|apply nf_add_r]; eauto.
Qed.

(** ** sizes *)
Lemma szs3 fpow L N J mr : 1 <= L <= 2 ^ 53 -> 1 <= J <= 32 -> powers_of_three fpow J -> forall j, 0 <= j <= J ->
  LN_j_fp fpow L j N (fint 3) mr = Ok (Lj_of L j 3 mr, Nj_of L j N 3 mr, L0_of j 3 mr) /\ scal_bandlimit_fp fpow L j (fint 3) mr = Ok (Ls_of L j 3 mr).
Proof.
  intros HL HJ HP j Hj. destruct (fp_sizes_int fpow 3 L j N mr) as [A B]; try lia.
  - apply three_le. lia.
  - intros i Hi. destruct HP as [_ HP]. pose proof (three_le i ltac:(lia)) as HT. split; [rewrite HP by lia; apply fint_fin; lia|]. cbv zeta. left.
    rewrite HP by lia. rewrite !fint_B2R by lia. rewrite pw_IZR by lia. symmetry. apply round_generic; [typeclasses eauto|].
    apply format_int. lia.
  - rewrite A, B. split; [apply (LN_j_ok L j N 3 mr)|apply (scal_bandlimit_ok L j 3 mr)]; lra.
Qed.
Lemma J3 L J : 795 <= L <= 2 ^ 50 -> j_max L 3 = Ok J -> 7 <= J <= 32.
Proof.
  intros HL EJ. destruct (j_max_spec L 3 ltac:(lia) ltac:(lra)) as (J' & EJ' & H1 & H2). rewrite EJ in EJ'. apply Ok_inj in EJ'. subst J'.
  assert (P : 0 <= J) by (apply (j_max_nonneg L 3 J); auto; [lia|lra]).
  rewrite (pw_IZR 3 J P) in H2. apply le_IZR in H2. split.
  - destruct (Z_le_gt_dec 7 J); [assumption|exfalso]. pose proof (Z.pow_le_mono_r 3 J 6 ltac:(lia) ltac:(lia)). change (3 ^ 6) with 729 in *. lia.
  - destruct (Z_le_gt_dec J 32); [assumption|exfalso]. rewrite (pw_IZR 3 (J - 1)) in H1 by lia. apply lt_IZR in H1.
    pose proof (Z.pow_le_mono_r 3 32 (J - 1) ltac:(lia) ltac:(lia)). change (3 ^ 32) with 1853020188851841 in *. change (2 ^ 50) with 1125899906842624 in HL. lia.
Qed.
Lemma six L mr : 795 <= L -> L0_of 6 3 mr <= 794 /\ 795 <= Lj_of L 6 3 mr.
Proof.
  intros HL. unfold L0_of, Lj_of. change (jj 6) with 6. destruct mr; [|lia]. change (6 - 1) with 5. change (6 + 1) with 7.
  rewrite !(pw_IZR 3) by lia. rewrite !rceil_IZR. change (3 ^ 5) with 243. change (3 ^ 7) with 2187. lia.
Qed.

(** ** the filters *)
Lemma dims3 fexp fpow flg J L N J_min spin psi phi : 1 <= L -> filters_directional_vectorised_fp fexp fpow flg J L N J_min (fint 3) spin 0 = Ok (psi, phi) ->
  dim0 psi = J + 1 /\ dim1 psi = L /\ dim2 psi = 2 * L - 1 /\ len1 phi = L /\ 0 <= J_min < J.
Proof.
  intros HL E. pose proof (dir_fp_fits fexp fpow flg J L N J_min (fint 3) spin 0 (psi, phi) HL (or_intror E)) as HF.
  assert (EA : exists kpsi kphi, filters_axisym_vectorised_fp fexp fpow J L J_min (fint 3) = Ok (kpsi, kphi)).
  { unfold filters_directional_vectorised_fp in E. change (negb (0 =? 0)) with false in E. cbv iota in E.
    apply bind_inv in E as ([kpsi kphi] & EA & _). eauto. }
  destruct EA as (kpsi & kphi & EA).
  destruct (vec_fp_inv _ _ _ _ _ _ _ _ EA) as (R & k & _ & Rp & Cp & Lp & _).
  rewrite (dir_vec_fp_ok fexp fpow flg J L N J_min (fint 3) spin kpsi kphi HL HF ltac:(lia) EA Rp Cp Lp) in E.
  apply Ok_inj in E. apply (f_equal fst) in E as E1. apply (f_equal snd) in E as E2. cbn [fst snd] in E1, E2. rewrite <- E1, <- E2.
  repeat split; lia.
Qed.

Lemma tiling_jax_dims jlg jexp L N s : 1 <= L -> tiling_direction_jax_fp jlg jexp L N = Ok s -> rows s = L /\ cols s = 2 * L - 1.
Proof.
  intros HL. unfold tiling_direction_jax_fp. rewrite zeros2_ok by lia. cbn [bind]. intros E.
  revert E. assert (A0 : rows (mk2 L (2 * L - 1) (fun _ _ => zero : c64)) = L /\ cols (mk2 L (2 * L - 1) (fun _ _ => zero : c64)) = 2 * L - 1) by (split; reflexivity).
  revert A0. generalize (mk2 L (2 * L - 1) (fun _ _ => zero : c64)) as a. generalize (zrange 1 L) as js.
  induction js as [|j js IH]; intros a A E; [apply Ok_inj in E; subst s; exact A|].
  cbn [for_] in E. apply bind_inv in E as (a' & Ea & E). apply IH in E; [exact E|].
  apply bind_inv in Ea as (u & _ & Ea). unfold upd2 in Ea. destruct (_ && _); [|discriminate]. apply Ok_inj in Ea. subst a'. exact A.
Qed.
Lemma jaxfilt3 fexp fpow jlg jexp J L N J_min spin psi phi : 795 <= L <= 2 ^ 53 -> 6 <= J <= 32 -> J_min <= 6 -> Z.abs spin <= 794 ->
  accurate_exp fexp -> overflowing_exp fexp -> powers_of_three fpow J ->
  filters_directional_jax_fp fexp fpow jlg jexp J L N J_min (fint 3) spin 0 = Ok (psi, phi) ->
  (dim0 psi = J + 1 /\ dim1 psi = L /\ dim2 psi = 2 * L - 1 /\ len1 phi = L /\ 0 <= J_min < J) /\
  forall i, 0 <= i < 2 * L - 1 -> is_finite (fst (get3 psi 6 794 i)) = false.
Proof.
  intros HL HJ HJm Hs HE HO HP E. unfold filters_directional_jax_fp in E. change (negb (0 =? 0)) with false in E. cbv iota in E.
  apply bind_inv in E as ([kpsi kphi] & EA & E). apply bind_inv in E as (sd & ES & E). apply tiling_jax_dims in ES as [R1 R2]; [|lia].
  pose proof EA as EA'. rewrite axi_jax in EA'.
  destruct (vec_fp_inv _ _ _ _ _ _ _ _ EA') as (R & k & _ & Rp & Cp & Lp & _).
  rewrite Lp, Cp, Rp, !bdim_refl in E. cbn [bind] in E. cbn [len1 rows cols dim0 dim1 dim2 mk1 mk2 mk3] in E. rewrite R1, R2, !bdim_refl in E. cbn [bind] in E.
  apply Ok_inj in E. apply (f_equal fst) in E as E1. apply (f_equal snd) in E as E2. cbn [fst snd] in E1, E2. rewrite <- E1, <- E2.
  split; [repeat split; lia|]. intros i Hi. unfold fill3. cbn [dim0 dim1 dim2 mk3]. rewrite get3_mk by lia.
  rewrite !mem_full, mem_upto, get3_mk, !bi_in by lia. rewrite !get2_mk, !bi_in by lia. cbn [andb].
  destruct (Z.ltb_spec 794 (Z.max (Z.abs spin) (Z.abs 0))); [lia|]. cbn [andb].
  rewrite (proj1 (fp3_infinite fexp fpow J L J_min kpsi kphi HL ltac:(lia) HE HO HP (or_intror (or_intror EA)) ltac:(lia)) HJm).
  replace (fmul finf (wav_weight_vec_fp 794)) with finf by (vm_compute; reflexivity). apply inf_cmul.
Qed.

Lemma syn_nf fsum L N J J_min mr psi phi Ts S m : 795 <= L <= 2 ^ 50 -> 1 <= N <= L -> j_max L 3 = Ok J -> 0 <= J_min <= 6 -> summation fsum ->
  (forall i, 0 <= i < 2 * L - 1 -> is_finite (fst (get3 psi 6 794 i)) = false) -> Z.abs m <= 794 ->
  is_finite (fst (get2 (syn64 fsum L J_min J (fun j => Lj_of L j 3 mr) (fun j => Nj_of L j N 3 mr) (fun j => L0_of j 3 mr) (Ls_of L J_min 3 mr) psi phi Ts S) 794 (L - 1 + m))) = false.
Proof.
  intros HL HN EJ HJm HM HI Hm. pose proof (J3 L J HL EJ) as HJ. unfold syn64. rewrite get2_mk by lia.
  destruct (six L mr ltac:(lia)) as [H0 HLj]. set (q := L - 1 + m).
  destruct (sz_facts L N J 3 mr ltac:(lia) ltac:(lia) ltac:(lra) EJ 6 ltac:(lia)) as (Z1 & Z2 & Z3 & Z4).
  assert (P : forall js a, is_finite (fst a) = false \/ In 6 js -> is_finite (fst (fold_left (fun a j =>
    step64 L (Lj_of L j 3 mr) (Nj_of L j N 3 mr) (L0_of j 3 mr) j fsum psi (Tnth nd30 J_min Ts j) 794 q a) js a)) = false).
  { induction js as [|j js IH]; intros a Ha; [destruct Ha as [Ha|[]]; exact Ha|]. cbn [fold_left]. apply IH.
    destruct Ha as [Ha|[->|Ha]]; [left|left|right; exact Ha].
    - unfold step64. destruct (inband _ _ _ _ _); [apply nf_cadd_l|]; exact Ha.
    - unfold step64. replace (inband L (Lj_of L 6 3 mr) (L0_of 6 3 mr) 794 q) with true.
      2:{ symmetry. unfold inband, q. rewrite !andb_true_iff, Z.leb_le, !Z.ltb_lt. lia. }
      apply nf_cadd_r. cbn [csum64 fst].
      refine (adds_nf _ _ (HM _ _ _) (fst (cmul (get3 psi 6 794 (L - Nj_of L 6 N 3 mr + 2 * 0)) (get3 (Tnth nd30 J_min Ts 6) (2 * 0) 794 (q - (L - Lj_of L 6 3 mr))))) _ _).
      + apply in_map. unfold terms64. apply (in_map (fun i => cmul (get3 psi 6 794 (L - Nj_of L 6 N 3 mr + 2 * i)) (get3 (Tnth nd30 J_min Ts 6) (2 * i) 794 (q - (L - Lj_of L 6 3 mr))))).
        apply In_zrange. lia.
      + apply nf_cmul_l. apply HI. lia. }
  assert (Q : forall a, is_finite (fst a) = false -> is_finite (fst (sstep64 L phi (Ls_of L J_min 3 mr) S 794 q a)) = false).
  { intros a Ha. unfold sstep64. destruct (_ && _); [apply nf_cadd_l|]; exact Ha. }
  apply Q, P. right. apply In_zrange. lia.
Qed.
Lemma par3 L N mr n : 795 <= L -> 1 <= N -> (n - N) mod 2 = 1 -> Z.even (Nj_of L 6 N 3 mr - 1 + n) = true.
Proof.
  intros HL HN Hp. destruct (Nj_facts L 6 N 3 mr ltac:(lia) ltac:(lra) ltac:(lia)) as (_ & _ & _ & Pj). cbv zeta in Pj.
  apply Z.even_spec. exists ((Nj_of L 6 N 3 mr - 1 + n) / 2). Z.div_mod_to_equations. lia.
Qed.

(*% analysis: whatever the signal, the Wigner coefficients of scale 6 are infinite or NaN at degree 794 *)
(*@ C90_analysis *)
Lemma fp3_analysis : forall fexp fpow flg O J f L N J_min spin s nside reality mr f_wav f_scal,
  795 <= L <= 2 ^ 50 -> 1 <= N <= L -> j_max L 3 = Ok J -> J_min <= 6 -> Z.abs spin <= 794 ->
  accurate_exp fexp -> overflowing_exp fexp -> powers_of_three fpow J -> documented_shapes O -> s <> Unknown ->
  analysis_fp fexp fpow flg O J f L N J_min (fint 3) spin 0 s nside reality mr = Ok (f_wav, f_scal) ->
  exists flmn Lj Nj L0j y, LN_j L 6 N 3 mr = Ok (Lj, Nj, L0j) /\ lrd f_wav (6 - J_min) = Ok y /\
    winv64 O flmn Lj Nj L0j s reality nside = Ok y /\
    forall n m, Z.abs n < Nj -> (n - N) mod 2 = 1 -> Z.abs m < Lj -> is_finite (fst (get3 flmn (Nj - 1 + n) 794 (Lj - 1 + m))) = false.
Proof.
  intros fexp fpow flg O J f L N J_min spin s nside reality mr f_wav f_scal HL HN EJ HJm Hs HE HO HP [HS1 HS2] Hsm E.
  pose proof (J3 L J HL EJ) as HJ. assert (HL' : 795 <= L <= 2 ^ 53) by (change (2 ^ 50) with 1125899906842624 in HL; lia).
  assert (EF : exists psi phi, filters_directional_vectorised_fp fexp fpow flg J L N J_min (fint 3) spin 0 = Ok (psi, phi)).
  { unfold analysis_fp in E. do 4 (apply bind_inv in E as (? & _ & E)). apply bind_inv in E as ([psi phi] & EF & _). eauto. }
  destruct EF as (psi & phi & EF). destruct (dims3 fexp fpow flg J L N J_min spin psi phi ltac:(lia) EF) as (D0 & D1 & D2 & D3 & D4).
  pose proof (szs3 fpow L N J mr ltac:(lia) ltac:(lia) HP) as SZ.
  rewrite (analysis64_ok fexp fpow flg L N J_min J (fint 3) mr (fun j => Lj_of L j 3 mr) (fun j => Nj_of L j N 3 mr) (fun j => L0_of j 3 mr) (Ls_of L J_min 3 mr)) with (psi := psi) (phi := phi) in E; auto; try lia.
  - apply bind_inv in E as (flm & Ef & E). apply bind_inv in E as (w & Ew & E). apply bind_inv in E as (sc & _ & E).
    apply Ok_inj in E. injection E as <- <-. apply mapM_inv in Ew as [Lw Ew]. rewrite zrange_length in Lw.
    destruct (Ew (Z.to_nat (6 - J_min)) 6) as (y & Ey & Ny).
    { rewrite nth_error_zrange by lia. f_equal. lia. }
    exists (wv L (fun j => Lj_of L j 3 mr) (fun j => Nj_of L j N 3 mr) (fun j => L0_of j 3 mr) psi flm 6), (Lj_of L 6 3 mr), (Nj_of L 6 N 3 mr), (L0_of 6 3 mr), y.
    split; [apply LN_j_ok; lra|]. split; [apply lrd_nth; [lia|exact Ny]|]. split; [exact Ey|].
    intros n m Hn Hp Hm. destruct (six L mr ltac:(lia)) as [H0 HLj].
    destruct (sz_facts L N J 3 mr ltac:(lia) ltac:(lia) ltac:(lra) EJ 6 ltac:(lia)) as (Z1 & Z2 & Z3 & Z4).
    unfold wv, wav64. rewrite get3_mk by lia.
    pose proof (par3 L N mr n ltac:(lia) ltac:(lia) Hp) as Ev.
    rewrite Ev. destruct (Z.leb_spec (L0_of 6 3 mr) 794); [|lia]. cbn [andb].
    apply nf_cmul_r, nf_cmul_l. cbn [fst cconj64].
    apply (fp3_directional fexp fpow flg J L N J_min spin psi phi HL' ltac:(lia) HJm Hs HE HO HP EF). lia.
  - intros j Hj. apply SZ. lia.
  - intros j Hj. destruct (sz_facts L N J 3 mr ltac:(lia) ltac:(lia) ltac:(lra) EJ j ltac:(lia)) as (Z1 & Z2 & Z3 & Z4). lia.
  - apply SZ. lia.
  - apply (Ls_range L J_min 3 mr); [lia|lra].
  - destruct s; cbn [sampling_ok]; congruence || exact I.
  - intros a Ea. apply (HS1 f L spin s nside reality a); [lia|exact Ea].
Qed.

(*% synthesis: whatever the coefficients, even if they vanish, the harmonic coefficients of the result are infinite or NaN at degree 794 *)
(*@ C90_synthesis *)
Lemma fp3_synthesis : forall fexp fpow flg fsum O J f_wav f_scal L N J_min spin s nside reality mr g,
  795 <= L <= 2 ^ 50 -> 1 <= N <= L -> j_max L 3 = Ok J -> J_min <= 6 -> Z.abs spin <= 794 ->
  accurate_exp fexp -> overflowing_exp fexp -> powers_of_three fpow J -> summation fsum -> documented_shapes O ->
  synthesis_fp fexp fpow flg fsum O J f_wav f_scal L N J_min (fint 3) spin 0 s nside reality mr = Ok g ->
  exists flm, inv64 O flm L spin s nside reality = Ok g /\ rows flm = L /\ cols flm = 2 * L - 1 /\
    forall m, Z.abs m <= 794 -> is_finite (fst (get2 flm 794 (L - 1 + m))) = false.
Proof.
  intros fexp fpow flg fsum O J f_wav f_scal L N J_min spin s nside reality mr g HL HN EJ HJm Hs HE HO HP HM [HS1 HS2] E.
  pose proof (J3 L J HL EJ) as HJ. assert (HL' : 795 <= L <= 2 ^ 53) by (change (2 ^ 50) with 1125899906842624 in HL; lia).
  pose proof (szs3 fpow L N J mr ltac:(lia) ltac:(lia) HP) as SZ.
  assert (EF : exists psi phi, filters_directional_vectorised_fp fexp fpow flg J L N J_min (fint 3) spin 0 = Ok (psi, phi)).
  { unfold synthesis_fp in E. do 4 (apply bind_inv in E as (? & _ & E)). apply bind_inv in E as ([psi phi] & EF & _). eauto. }
  destruct EF as (psi & phi & EF). destruct (dims3 fexp fpow flg J L N J_min spin psi phi ltac:(lia) EF) as (D0 & D1 & D2 & D3 & D4).
  rewrite (synthesis64_ok fexp fpow flg fsum L N J_min J (fint 3) mr (fun j => Lj_of L j 3 mr) (fun j => Nj_of L j N 3 mr) (fun j => L0_of j 3 mr) (Ls_of L J_min 3 mr)) with (psi := psi) (phi := phi) in E; auto; try lia.
  - apply bind_inv in E as (u & _ & E). apply bind_inv in E as (S & _ & E). apply bind_inv in E as (Ts & _ & E).
    eexists. split; [exact E|]. split; [reflexivity|]. split; [reflexivity|]. intros m Hm.
    apply (syn_nf fsum L N J J_min mr psi phi Ts S m HL HN EJ ltac:(lia) HM); [|exact Hm].
    exact (fp3_directional fexp fpow flg J L N J_min spin psi phi HL' ltac:(lia) HJm Hs HE HO HP EF).
  - intros j Hj. apply SZ. lia.
  - intros j Hj. destruct (sz_facts L N J 3 mr ltac:(lia) ltac:(lia) ltac:(lra) EJ j ltac:(lia)) as (Z1 & Z2 & Z3 & Z4). lia.
  - apply SZ. lia.
  - apply (Ls_range L J_min 3 mr); [lia|lra].
  - intros S ES. apply (HS1 f_scal (Ls_of L J_min 3 mr) spin s nside reality S); [|exact ES]. apply (Ls_range L J_min 3 mr); [lia|lra].
  - intros j fj T Hj _ ET. destruct (sz_facts L N J 3 mr ltac:(lia) ltac:(lia) ltac:(lra) EJ j ltac:(lia)) as (Z1 & Z2 & Z3 & Z4).
    apply (HS2 fj _ _ _ s nside reality T) in ET; [exact ET|lia|lia].
Qed.

(** the filters of either implementation *)
Lemma filt3 fexp fpow flg jlg jexp J L N J_min spin psi phi : 795 <= L <= 2 ^ 53 -> 6 <= J <= 32 -> J_min <= 6 -> Z.abs spin <= 794 ->
  accurate_exp fexp -> overflowing_exp fexp -> powers_of_three fpow J ->
  filters_directional_vectorised_fp fexp fpow flg J L N J_min (fint 3) spin 0 = Ok (psi, phi) \/
  filters_directional_jax_fp fexp fpow jlg jexp J L N J_min (fint 3) spin 0 = Ok (psi, phi) ->
  (dim0 psi = J + 1 /\ dim1 psi = L /\ dim2 psi = 2 * L - 1 /\ len1 phi = L /\ 0 <= J_min < J) /\
  forall i, 0 <= i < 2 * L - 1 -> is_finite (fst (get3 psi 6 794 i)) = false.
Proof.
  intros HL HJ HJm Hs HE HO HP [E|E].
  - split; [apply (dims3 fexp fpow flg J L N J_min spin psi phi ltac:(lia) E)|].
    exact (fp3_directional fexp fpow flg J L N J_min spin psi phi HL HJ HJm Hs HE HO HP E).
  - exact (jaxfilt3 fexp fpow jlg jexp J L N J_min spin psi phi HL HJ HJm Hs HE HO HP E).
Qed.

(*% the JAX transforms, with filters of either implementation *)
(*@ C90_jax_analysis *)
Lemma fp3_jax_analysis : forall fexp fpow flg jlg jexp O J f L N J_min spin s nside reality psi phi f_wav f_scal,
  795 <= L <= 2 ^ 50 -> 1 <= N <= L -> j_max L 3 = Ok J -> J_min <= 6 -> Z.abs spin <= 794 ->
  accurate_exp fexp -> overflowing_exp fexp -> powers_of_three fpow J -> documented_shapes (jax_lib O) ->
  filters_directional_vectorised_fp fexp fpow flg J L N J_min (fint 3) spin 0 = Ok (psi, phi) \/
  filters_directional_jax_fp fexp fpow jlg jexp J L N J_min (fint 3) spin 0 = Ok (psi, phi) ->
  jax_analysis_fp fpow O J f L N J_min (fint 3) spin s nside reality (Some (psi, phi)) None = Ok (f_wav, f_scal) ->
  exists flmn Lj Nj L0j y, LN_j L 6 N 3 true = Ok (Lj, Nj, L0j) /\ lrd f_wav (6 - J_min) = Ok y /\
    winv64 (jax_lib O) flmn Lj Nj L0j s reality nside = Ok y /\
    forall n m, Z.abs n < Nj -> (n - N) mod 2 = 1 -> Z.abs m < Lj -> is_finite (fst (get3 flmn (Nj - 1 + n) 794 (Lj - 1 + m))) = false.
Proof.
  intros fexp fpow flg jlg jexp O J f L N J_min spin s nside reality psi phi f_wav f_scal HL HN EJ HJm Hs HE HO HP [HS1 HS2] EF E.
  pose proof (J3 L J HL EJ) as HJ. assert (HL' : 795 <= L <= 2 ^ 53) by (change (2 ^ 50) with 1125899906842624 in HL; lia).
  destruct (filt3 fexp fpow flg jlg jexp J L N J_min spin psi phi HL' ltac:(lia) HJm Hs HE HO HP EF) as ((D0 & D1 & D2 & D3 & D4) & HI).
  pose proof (szs3 fpow L N J true ltac:(lia) ltac:(lia) HP) as SZ.
  rewrite (jan64 fpow L N J_min J (fint 3) (fun j => Lj_of L j 3 true) (fun j => Nj_of L j N 3 true) (fun j => L0_of j 3 true) (Ls_of L J_min 3 true)) in E; auto; try lia.
  - apply bind_inv in E as (flm & Ef & E). apply bind_inv in E as (w & Ew & E). apply bind_inv in E as (sc & _ & E).
    apply Ok_inj in E. injection E as <- <-. apply mapM_inv in Ew as [Lw Ew]. rewrite zrange_length in Lw.
    destruct (Ew (Z.to_nat (6 - J_min)) 6) as (y & Ey & Ny).
    { rewrite nth_error_zrange by lia. f_equal. lia. }
    exists (wj L (fun j => Lj_of L j 3 true) (fun j => Nj_of L j N 3 true) (fun j => L0_of j 3 true) psi flm 6), (Lj_of L 6 3 true), (Nj_of L 6 N 3 true), (L0_of 6 3 true), y.
    split; [apply LN_j_ok; lra|]. split; [apply lrd_nth; [lia|exact Ny]|]. split; [exact Ey|].
    intros n m Hn Hp Hm. destruct (six L true ltac:(lia)) as [H0 HLj].
    destruct (sz_facts L N J 3 true ltac:(lia) ltac:(lia) ltac:(lra) EJ 6 ltac:(lia)) as (Z1 & Z2 & Z3 & Z4).
    unfold wj, wavj. rewrite get3_mk by lia. rewrite (par3 L N true n ltac:(lia) ltac:(lia) Hp). destruct (Z.leb_spec (L0_of 6 3 true) 794); [|lia]. cbn [andb].
    apply nf_cadd_r, nf_cmul_r, nf_cmul_l. cbn [fst cconj64]. apply HI. lia.
  - intros j Hj. apply SZ. lia.
  - intros j Hj. destruct (sz_facts L N J 3 true ltac:(lia) ltac:(lia) ltac:(lra) EJ j ltac:(lia)) as (Z1 & Z2 & Z3 & Z4). lia.
  - apply SZ. lia.
  - apply (Ls_range L J_min 3 true); [lia|lra].
  - intros a Ea. apply (HS1 f L spin s nside reality a); [lia|exact Ea].
Qed.

(*@ C90_jax_synthesis *)
Lemma fp3_jax_synthesis : forall fexp fpow flg jlg jexp fsum O J f_wav f_scal L N J_min spin s nside reality psi phi g,
  795 <= L <= 2 ^ 50 -> 1 <= N <= L -> j_max L 3 = Ok J -> J_min <= 6 -> Z.abs spin <= 794 ->
  accurate_exp fexp -> overflowing_exp fexp -> powers_of_three fpow J -> summation fsum -> documented_shapes (jax_lib O) ->
  filters_directional_vectorised_fp fexp fpow flg J L N J_min (fint 3) spin 0 = Ok (psi, phi) \/
  filters_directional_jax_fp fexp fpow jlg jexp J L N J_min (fint 3) spin 0 = Ok (psi, phi) ->
  jax_synthesis_fp fpow fsum O J f_wav f_scal L N J_min (fint 3) spin s nside reality (Some (psi, phi)) None = Ok g ->
  exists flm, inv64 (jax_lib O) flm L spin s nside reality = Ok g /\ rows flm = L /\ cols flm = 2 * L - 1 /\
    forall m, Z.abs m <= 794 -> is_finite (fst (get2 flm 794 (L - 1 + m))) = false.
Proof.
  intros fexp fpow flg jlg jexp fsum O J f_wav f_scal L N J_min spin s nside reality psi phi g HL HN EJ HJm Hs HE HO HP HM [HS1 HS2] EF E.
  pose proof (J3 L J HL EJ) as HJ. assert (HL' : 795 <= L <= 2 ^ 53) by (change (2 ^ 50) with 1125899906842624 in HL; lia).
  destruct (filt3 fexp fpow flg jlg jexp J L N J_min spin psi phi HL' ltac:(lia) HJm Hs HE HO HP EF) as ((D0 & D1 & D2 & D3 & D4) & HI).
  pose proof (szs3 fpow L N J true ltac:(lia) ltac:(lia) HP) as SZ.
  rewrite (jsy64 fpow fsum L N J_min J (fint 3) (fun j => Lj_of L j 3 true) (fun j => Nj_of L j N 3 true) (fun j => L0_of j 3 true) (Ls_of L J_min 3 true)) in E; auto; try lia.
  - apply bind_inv in E as (S & _ & E). apply bind_inv in E as (Ts & _ & E).
    eexists. split; [exact E|]. split; [reflexivity|]. split; [reflexivity|]. intros m Hm.
    apply (syn_nf fsum L N J J_min true psi phi Ts S m HL HN EJ ltac:(lia) HM); [exact HI|exact Hm].
  - intros j Hj. apply SZ. lia.
  - intros j Hj. destruct (sz_facts L N J 3 true ltac:(lia) ltac:(lia) ltac:(lra) EJ j ltac:(lia)) as (Z1 & Z2 & Z3 & Z4). lia.
  - apply SZ. lia.
  - apply (Ls_range L J_min 3 true); [lia|lra].
  - intros S ES. apply (HS1 f_scal (Ls_of L J_min 3 true) spin s nside reality S); [|exact ES]. apply (Ls_range L J_min 3 true); [lia|lra].
  - intros j fj T Hj _ ET. destruct (sz_facts L N J 3 true ltac:(lia) ltac:(lia) ltac:(lra) EJ j ltac:(lia)) as (Z1 & Z2 & Z3 & Z4).
    apply (HS2 fj _ _ _ s nside reality T) in ET; [exact ET|lia|lia].
Qed.

Lemma top3 L N J : 1 <= L -> j_max L 3 = Ok J -> 1 <= J -> Lj_of L (J - 1) 3 true = Lj_of L J 3 true /\ Nj_of L (J - 1) N 3 true = Nj_of L J N 3 true.
Proof.
  intros HL EJ HJ. assert (Lj_of L (J - 1) 3 true = L) as E1 by (apply (Lj_full _ _ _ _ J); auto; lra || lia).
  assert (Lj_of L J 3 true = L) as E2 by (apply (Lj_full _ _ _ _ J); auto; lra || lia). split; [congruence|]. unfold Nj_of. now rewrite E1, E2.
Qed.

(*% the precompute transforms, with the kernels of generate_full_precomputes *)
(*@ C90_precompute_analysis *)
Lemma fp3_pre_analysis : forall fexp fpow flg jlg jexp O J f L N J_min spin s nside reality psi phi q f_wav f_scal,
  795 <= L <= 2 ^ 50 -> 1 <= N <= L -> j_max L 3 = Ok J -> J_min <= 6 -> Z.abs spin <= 794 ->
  accurate_exp fexp -> overflowing_exp fexp -> powers_of_three fpow J -> documented_shapes (pre_lib O) ->
  filters_directional_vectorised_fp fexp fpow flg J L N J_min (fint 3) spin 0 = Ok (psi, phi) \/
  filters_directional_jax_fp fexp fpow jlg jexp J L N J_min (fint 3) spin 0 = Ok (psi, phi) ->
  generate_full_precomputes_fp fpow J L N J_min (fint 3) s nside false reality false = Ok q ->
  pre_analysis_fp fpow O J f L N J_min (fint 3) spin s nside reality (Some (psi, phi)) (Some q) = Ok (f_wav, f_scal) ->
  exists flmn Lj Nj L0j y, LN_j L 6 N 3 true = Ok (Lj, Nj, L0j) /\ lrd f_wav (6 - J_min) = Ok y /\
    winv64 (pre_lib O) flmn Lj Nj L0j s reality nside = Ok y /\
    forall n m, Z.abs n < Nj -> (n - N) mod 2 = 1 -> Z.abs m < Lj -> is_finite (fst (get3 flmn (Nj - 1 + n) 794 (Lj - 1 + m))) = false.
Proof.
  intros fexp fpow flg jlg jexp O J f L N J_min spin s nside reality psi phi q f_wav f_scal HL HN EJ HJm Hs HE HO HP [HS1 HS2] EF Eq E.
  pose proof (J3 L J HL EJ) as HJ. assert (HL' : 795 <= L <= 2 ^ 53) by (change (2 ^ 50) with 1125899906842624 in HL; lia).
  destruct (filt3 fexp fpow flg jlg jexp J L N J_min spin psi phi HL' ltac:(lia) HJm Hs HE HO HP EF) as ((D0 & D1 & D2 & D3 & D4) & HI).
  pose proof (szs3 fpow L N J true ltac:(lia) ltac:(lia) HP) as SZ.
  destruct (top3 L N J ltac:(lia) EJ ltac:(lia)) as [TS1 TS2].
  assert (SZ' : forall j, J_min <= j <= J -> LN_j_fp fpow L j N (fint 3) true = Ok (Lj_of L j 3 true, Nj_of L j N 3 true, L0_of j 3 true)) by (intros; apply SZ; lia).
  pose proof (proj2 (SZ J_min ltac:(lia))) as SL.
  assert (HLs : 1 <= Ls_of L J_min 3 true <= L) by (apply (Ls_range L J_min 3 true); [lia|lra]).
  assert (Szj : forall j, J_min <= j <= J -> 0 <= L0_of j 3 true <= Lj_of L j 3 true /\ 1 <= Lj_of L j 3 true <= L /\ 1 <= Nj_of L j N 3 true <= L).
  { intros j Hj. destruct (sz_facts L N J 3 true ltac:(lia) ltac:(lia) ltac:(lra) EJ j ltac:(lia)) as (Z1 & Z2 & Z3 & Z4). lia. }
  rewrite (gen_full64 fpow L N J_min J (fint 3) (fun j => Lj_of L j 3 true) (fun j => Nj_of L j N 3 true) (fun j => L0_of j 3 true) (Ls_of L J_min 3 true)) in Eq by (auto; lia). apply Ok_inj in Eq. subst q. cbn [negb] in E.
  rewrite (pan64 fpow L N J_min J (fint 3) (fun j => Lj_of L j 3 true) (fun j => Nj_of L j N 3 true) (fun j => L0_of j 3 true) (Ls_of L J_min 3 true)) in E; auto; try lia.
  - apply bind_inv in E as (flm & Ef & E). apply bind_inv in E as (w & Ew & E). apply bind_inv in E as (sc & _ & E).
    apply Ok_inj in E. injection E as <- <-. apply mapM_inv in Ew as [Lw Ew]. rewrite zrange_length in Lw.
    destruct (Ew (Z.to_nat (6 - J_min)) 6) as (y & Ey & Ny).
    { rewrite nth_error_zrange by lia. f_equal. lia. }
    exists (wj L (fun j => Lj_of L j 3 true) (fun j => Nj_of L j N 3 true) (fun j => L0_of j 3 true) psi flm 6), (Lj_of L 6 3 true), (Nj_of L 6 N 3 true), (L0_of 6 3 true), y.
    split; [apply LN_j_ok; lra|]. split; [apply lrd_nth; [lia|exact Ny]|]. split; [exact Ey|].
    intros n m Hn Hp Hm. destruct (six L true ltac:(lia)) as [H0 HLj].
    destruct (sz_facts L N J 3 true ltac:(lia) ltac:(lia) ltac:(lra) EJ 6 ltac:(lia)) as (Z1 & Z2 & Z3 & Z4).
    unfold wj, wavj. rewrite get3_mk by lia. rewrite (par3 L N true n ltac:(lia) ltac:(lia) Hp). destruct (Z.leb_spec (L0_of 6 3 true) 794); [|lia]. cbn [andb].
    apply nf_cadd_r, nf_cmul_r, nf_cmul_l. cbn [fst cconj64]. apply HI. lia.
  - intros a Ea. apply (HS1 f L spin s nside reality a); [lia|exact Ea].
Qed.

(*@ C90_precompute_synthesis *)
Lemma fp3_pre_synthesis : forall fexp fpow flg jlg jexp fsum O J f_wav f_scal L N J_min spin s nside reality psi phi q g,
  795 <= L <= 2 ^ 50 -> 1 <= N <= L -> j_max L 3 = Ok J -> J_min <= 6 -> Z.abs spin <= 794 ->
  accurate_exp fexp -> overflowing_exp fexp -> powers_of_three fpow J -> summation fsum -> documented_shapes (pre_lib O) ->
  filters_directional_vectorised_fp fexp fpow flg J L N J_min (fint 3) spin 0 = Ok (psi, phi) \/
  filters_directional_jax_fp fexp fpow jlg jexp J L N J_min (fint 3) spin 0 = Ok (psi, phi) ->
  generate_full_precomputes_fp fpow J L N J_min (fint 3) s nside true reality false = Ok q ->
  pre_synthesis_fp fpow fsum O J f_wav f_scal L N J_min (fint 3) spin s nside reality (Some (psi, phi)) (Some q) = Ok g ->
  exists flm, inv64 (pre_lib O) flm L spin s nside reality = Ok g /\ rows flm = L /\ cols flm = 2 * L - 1 /\
    forall m, Z.abs m <= 794 -> is_finite (fst (get2 flm 794 (L - 1 + m))) = false.
Proof.
  intros fexp fpow flg jlg jexp fsum O J f_wav f_scal L N J_min spin s nside reality psi phi q g HL HN EJ HJm Hs HE HO HP HM [HS1 HS2] EF Eq E.
  pose proof (J3 L J HL EJ) as HJ. assert (HL' : 795 <= L <= 2 ^ 53) by (change (2 ^ 50) with 1125899906842624 in HL; lia).
  destruct (filt3 fexp fpow flg jlg jexp J L N J_min spin psi phi HL' ltac:(lia) HJm Hs HE HO HP EF) as ((D0 & D1 & D2 & D3 & D4) & HI).
  pose proof (szs3 fpow L N J true ltac:(lia) ltac:(lia) HP) as SZ.
  destruct (top3 L N J ltac:(lia) EJ ltac:(lia)) as [TS1 TS2].
  assert (SZ' : forall j, J_min <= j <= J -> LN_j_fp fpow L j N (fint 3) true = Ok (Lj_of L j 3 true, Nj_of L j N 3 true, L0_of j 3 true)) by (intros; apply SZ; lia).
  pose proof (proj2 (SZ J_min ltac:(lia))) as SL.
  assert (HLs : 1 <= Ls_of L J_min 3 true <= L) by (apply (Ls_range L J_min 3 true); [lia|lra]).
  assert (Szj : forall j, J_min <= j <= J -> 0 <= L0_of j 3 true <= Lj_of L j 3 true /\ 1 <= Lj_of L j 3 true <= L /\ 1 <= Nj_of L j N 3 true <= L).
  { intros j Hj. destruct (sz_facts L N J 3 true ltac:(lia) ltac:(lia) ltac:(lra) EJ j ltac:(lia)) as (Z1 & Z2 & Z3 & Z4). lia. }
  rewrite (gen_full64 fpow L N J_min J (fint 3) (fun j => Lj_of L j 3 true) (fun j => Nj_of L j N 3 true) (fun j => L0_of j 3 true) (Ls_of L J_min 3 true)) in Eq by (auto; lia). apply Ok_inj in Eq. subst q. cbn [negb] in E.
  rewrite (psy64 fpow fsum L N J_min J (fint 3) (fun j => Lj_of L j 3 true) (fun j => Nj_of L j N 3 true) (fun j => L0_of j 3 true) (Ls_of L J_min 3 true)) in E; auto; try lia.
  - apply bind_inv in E as (S & _ & E). apply bind_inv in E as (Ts & _ & E).
    eexists. split; [exact E|]. split; [reflexivity|]. split; [reflexivity|]. intros m Hm.
    apply (syn_nf fsum L N J J_min true psi phi Ts S m HL HN EJ ltac:(lia) HM); [exact HI|exact Hm].
  - intros S ES. apply (HS1 f_scal (Ls_of L J_min 3 true) spin s nside reality S); [|exact ES]. apply (Ls_range L J_min 3 true); [lia|lra].
  - intros j fj T Hj _ ET. destruct (sz_facts L N J 3 true ltac:(lia) ltac:(lia) ltac:(lra) EJ j ltac:(lia)) as (Z1 & Z2 & Z3 & Z4).
    apply (HS2 fj _ _ _ s nside reality T) in ET; [exact ET|lia|lia].
Qed.

(*% the PyTorch transforms, with the same kernels *)
(*@ C90_torch_analysis *)
Lemma fp3_torch_analysis : forall fexp fpow flg jlg jexp O J f L N J_min spin s nside reality psi phi q f_wav f_scal,
  795 <= L <= 2 ^ 50 -> 1 <= N <= L -> j_max L 3 = Ok J -> J_min <= 6 -> Z.abs spin <= 794 ->
  accurate_exp fexp -> overflowing_exp fexp -> powers_of_three fpow J -> documented_shapes (torch_lib O) ->
  filters_directional_vectorised_fp fexp fpow flg J L N J_min (fint 3) spin 0 = Ok (psi, phi) \/
  filters_directional_jax_fp fexp fpow jlg jexp J L N J_min (fint 3) spin 0 = Ok (psi, phi) ->
  generate_full_precomputes_fp fpow J L N J_min (fint 3) s nside false reality false = Ok q ->
  torch_analysis_fp fpow O J f L N J_min (fint 3) spin s nside reality (Some (psi, phi)) (Some q) = Ok (f_wav, f_scal) ->
  exists flmn Lj Nj L0j y, LN_j L 6 N 3 true = Ok (Lj, Nj, L0j) /\ lrd f_wav (6 - J_min) = Ok (Some y) /\
    winv64 (torch_lib O) flmn Lj Nj L0j s reality nside = Ok y /\
    forall n m, Z.abs n < Nj -> (n - N) mod 2 = 1 -> Z.abs m < Lj -> is_finite (fst (get3 flmn (Nj - 1 + n) 794 (Lj - 1 + m))) = false.
Proof.
  intros fexp fpow flg jlg jexp O J f L N J_min spin s nside reality psi phi q f_wav f_scal HL HN EJ HJm Hs HE HO HP [HS1 HS2] EF Eq E.
  pose proof (J3 L J HL EJ) as HJ. assert (HL' : 795 <= L <= 2 ^ 53) by (change (2 ^ 50) with 1125899906842624 in HL; lia).
  destruct (filt3 fexp fpow flg jlg jexp J L N J_min spin psi phi HL' ltac:(lia) HJm Hs HE HO HP EF) as ((D0 & D1 & D2 & D3 & D4) & HI).
  pose proof (szs3 fpow L N J true ltac:(lia) ltac:(lia) HP) as SZ.
  destruct (top3 L N J ltac:(lia) EJ ltac:(lia)) as [TS1 TS2].
  assert (SZ' : forall j, J_min <= j <= J -> LN_j_fp fpow L j N (fint 3) true = Ok (Lj_of L j 3 true, Nj_of L j N 3 true, L0_of j 3 true)) by (intros; apply SZ; lia).
  pose proof (proj2 (SZ J_min ltac:(lia))) as SL.
  assert (HLs : 1 <= Ls_of L J_min 3 true <= L) by (apply (Ls_range L J_min 3 true); [lia|lra]).
  assert (Szj : forall j, J_min <= j <= J -> 0 <= L0_of j 3 true <= Lj_of L j 3 true /\ 1 <= Lj_of L j 3 true <= L /\ 1 <= Nj_of L j N 3 true <= L).
  { intros j Hj. destruct (sz_facts L N J 3 true ltac:(lia) ltac:(lia) ltac:(lra) EJ j ltac:(lia)) as (Z1 & Z2 & Z3 & Z4). lia. }
  rewrite (gen_full64 fpow L N J_min J (fint 3) (fun j => Lj_of L j 3 true) (fun j => Nj_of L j N 3 true) (fun j => L0_of j 3 true) (Ls_of L J_min 3 true)) in Eq by (auto; lia). apply Ok_inj in Eq. subst q. cbn [negb] in E.
  rewrite (tan64 fpow L N J_min J (fint 3) (fun j => Lj_of L j 3 true) (fun j => Nj_of L j N 3 true) (fun j => L0_of j 3 true) (Ls_of L J_min 3 true)) in E; auto; try lia.
  - apply bind_inv in E as (flm & Ef & E). apply bind_inv in E as (w & Ew & E). apply bind_inv in E as (sc & _ & E).
    apply Ok_inj in E. injection E as <- <-. apply mapM_inv in Ew as [Lw Ew]. rewrite zrange_length in Lw.
    destruct (Ew (Z.to_nat (6 - J_min)) 6) as (y & Ey & Ny).
    { rewrite nth_error_zrange by lia. f_equal. lia. }
    exists (wj L (fun j => Lj_of L j 3 true) (fun j => Nj_of L j N 3 true) (fun j => L0_of j 3 true) psi flm 6), (Lj_of L 6 3 true), (Nj_of L 6 N 3 true), (L0_of 6 3 true), y.
    split; [apply LN_j_ok; lra|]. split; [apply lrd_nth; [rewrite map_length; lia|rewrite nth_error_map, Ny; reflexivity]|]. split; [exact Ey|].
    intros n m Hn Hp Hm. destruct (six L true ltac:(lia)) as [H0 HLj].
    destruct (sz_facts L N J 3 true ltac:(lia) ltac:(lia) ltac:(lra) EJ 6 ltac:(lia)) as (Z1 & Z2 & Z3 & Z4).
    unfold wj, wavj. rewrite get3_mk by lia. rewrite (par3 L N true n ltac:(lia) ltac:(lia) Hp). destruct (Z.leb_spec (L0_of 6 3 true) 794); [|lia]. cbn [andb].
    apply nf_cadd_r, nf_cmul_r, nf_cmul_l. cbn [fst cconj64]. apply HI. lia.
  - intros a Ea. apply (HS1 f L spin s nside reality a); [lia|exact Ea].
Qed.

(*@ C90_torch_synthesis *)
Lemma fp3_torch_synthesis : forall fexp fpow flg jlg jexp fsum O J f_wav f_scal L N J_min spin s nside reality psi phi q g,
  795 <= L <= 2 ^ 50 -> 1 <= N <= L -> j_max L 3 = Ok J -> J_min <= 6 -> Z.abs spin <= 794 ->
  accurate_exp fexp -> overflowing_exp fexp -> powers_of_three fpow J -> summation fsum -> documented_shapes (torch_lib O) ->
  filters_directional_vectorised_fp fexp fpow flg J L N J_min (fint 3) spin 0 = Ok (psi, phi) \/
  filters_directional_jax_fp fexp fpow jlg jexp J L N J_min (fint 3) spin 0 = Ok (psi, phi) ->
  generate_full_precomputes_fp fpow J L N J_min (fint 3) s nside true reality false = Ok q ->
  torch_synthesis_fp fpow fsum O J f_wav f_scal L N J_min (fint 3) spin s nside reality (Some (psi, phi)) (Some q) = Ok g ->
  exists flm, inv64 (torch_lib O) flm L spin s nside reality = Ok g /\ rows flm = L /\ cols flm = 2 * L - 1 /\
    forall m, Z.abs m <= 794 -> is_finite (fst (get2 flm 794 (L - 1 + m))) = false.
Proof.
  intros fexp fpow flg jlg jexp fsum O J f_wav f_scal L N J_min spin s nside reality psi phi q g HL HN EJ HJm Hs HE HO HP HM [HS1 HS2] EF Eq E.
  pose proof (J3 L J HL EJ) as HJ. assert (HL' : 795 <= L <= 2 ^ 53) by (change (2 ^ 50) with 1125899906842624 in HL; lia).
  destruct (filt3 fexp fpow flg jlg jexp J L N J_min spin psi phi HL' ltac:(lia) HJm Hs HE HO HP EF) as ((D0 & D1 & D2 & D3 & D4) & HI).
  pose proof (szs3 fpow L N J true ltac:(lia) ltac:(lia) HP) as SZ.
  destruct (top3 L N J ltac:(lia) EJ ltac:(lia)) as [TS1 TS2].
  assert (SZ' : forall j, J_min <= j <= J -> LN_j_fp fpow L j N (fint 3) true = Ok (Lj_of L j 3 true, Nj_of L j N 3 true, L0_of j 3 true)) by (intros; apply SZ; lia).
  pose proof (proj2 (SZ J_min ltac:(lia))) as SL.
  assert (HLs : 1 <= Ls_of L J_min 3 true <= L) by (apply (Ls_range L J_min 3 true); [lia|lra]).
  assert (Szj : forall j, J_min <= j <= J -> 0 <= L0_of j 3 true <= Lj_of L j 3 true /\ 1 <= Lj_of L j 3 true <= L /\ 1 <= Nj_of L j N 3 true <= L).
  { intros j Hj. destruct (sz_facts L N J 3 true ltac:(lia) ltac:(lia) ltac:(lra) EJ j ltac:(lia)) as (Z1 & Z2 & Z3 & Z4). lia. }
  rewrite (gen_full64 fpow L N J_min J (fint 3) (fun j => Lj_of L j 3 true) (fun j => Nj_of L j N 3 true) (fun j => L0_of j 3 true) (Ls_of L J_min 3 true)) in Eq by (auto; lia). apply Ok_inj in Eq. subst q. cbn [negb] in E.
  rewrite torch_sy_as in E.
  rewrite (psy64 fpow fsum L N J_min J (fint 3) (fun j => Lj_of L j 3 true) (fun j => Nj_of L j N 3 true) (fun j => L0_of j 3 true) (Ls_of L J_min 3 true)) in E; auto; try lia.
  - apply bind_inv in E as (S & _ & E). apply bind_inv in E as (Ts & _ & E).
    eexists. split; [exact E|]. split; [reflexivity|]. split; [reflexivity|]. intros m Hm.
    apply (syn_nf fsum L N J J_min true psi phi Ts S m HL HN EJ ltac:(lia) HM); [exact HI|exact Hm].
  - intros S ES. apply (HS1 f_scal (Ls_of L J_min 3 true) spin s nside reality S); [|exact ES]. apply (Ls_range L J_min 3 true); [lia|lra].
  - intros j fj T Hj _ ET. destruct (sz_facts L N J 3 true ltac:(lia) ltac:(lia) ltac:(lra) EJ j ltac:(lia)) as (Z1 & Z2 & Z3 & Z4).
    apply (HS2 fj _ _ _ s nside reality T) in ET; [exact ET|lia|lia].
Qed.

(*% the transforms of the C backend (SSHT) *)
(*@ C90_ssht_analysis *)
Lemma fp3_ssht_analysis : forall fexp fpow flg jlg jexp O J f L N J_min spin s nside (reality : bool) psi phi f_wav f_scal,
  795 <= L <= 2 ^ 50 -> 1 <= N <= L -> j_max L 3 = Ok J -> J_min <= 6 -> Z.abs spin <= 794 ->
  accurate_exp fexp -> overflowing_exp fexp -> powers_of_three fpow J -> documented_shapes (ssht_lib O) -> ssht_scheme s -> (reality = true -> nd_real64 f = f) ->
  filters_directional_vectorised_fp fexp fpow flg J L N J_min (fint 3) spin 0 = Ok (psi, phi) \/
  filters_directional_jax_fp fexp fpow jlg jexp J L N J_min (fint 3) spin 0 = Ok (psi, phi) ->
  ssht_analysis_fp fpow O J f L N J_min (fint 3) spin s reality (Some (psi, phi)) = Ok (f_wav, f_scal) ->
  exists flmn Lj Nj L0j y, LN_j L 6 N 3 true = Ok (Lj, Nj, L0j) /\ lrd f_wav (6 - J_min) = Ok y /\
    winv64 (ssht_lib O) flmn Lj Nj L0j s reality nside = Ok y /\
    forall n m, Z.abs n < Nj -> (n - N) mod 2 = 1 -> Z.abs m < Lj -> is_finite (fst (get3 flmn (Nj - 1 + n) 794 (Lj - 1 + m))) = false.
Proof.
  intros fexp fpow flg jlg jexp O J f L N J_min spin s nside reality psi phi f_wav f_scal HL HN EJ HJm Hs HE HO HP [HS1 HS2] Hsm Hre EF E.
  pose proof (J3 L J HL EJ) as HJ. assert (HL' : 795 <= L <= 2 ^ 53) by (change (2 ^ 50) with 1125899906842624 in HL; lia).
  destruct (filt3 fexp fpow flg jlg jexp J L N J_min spin psi phi HL' ltac:(lia) HJm Hs HE HO HP EF) as ((D0 & D1 & D2 & D3 & D4) & HI).
  pose proof (szs3 fpow L N J true ltac:(lia) ltac:(lia) HP) as SZ.
  destruct (top3 L N J ltac:(lia) EJ ltac:(lia)) as [TS1 TS2].
  assert (SZ' : forall j, J_min <= j <= J -> LN_j_fp fpow L j N (fint 3) true = Ok (Lj_of L j 3 true, Nj_of L j N 3 true, L0_of j 3 true)) by (intros; apply SZ; lia).
  pose proof (proj2 (SZ J_min ltac:(lia))) as SL.
  assert (HLs : 1 <= Ls_of L J_min 3 true <= L) by (apply (Ls_range L J_min 3 true); [lia|lra]).
  assert (Szj : forall j, J_min <= j <= J -> 0 <= L0_of j 3 true <= Lj_of L j 3 true /\ 1 <= Lj_of L j 3 true <= L /\ 1 <= Nj_of L j N 3 true <= L).
  { intros j Hj. destruct (sz_facts L N J 3 true ltac:(lia) ltac:(lia) ltac:(lra) EJ j ltac:(lia)) as (Z1 & Z2 & Z3 & Z4). lia. }
  rewrite (can64 fpow L N J_min J (fint 3) (fun j => Lj_of L j 3 true) (fun j => Nj_of L j N 3 true) (fun j => L0_of j 3 true) (Ls_of L J_min 3 true)) with (nside := nside) in E; auto; try lia.
  - apply bind_inv in E as (flm & Ef & E). apply bind_inv in E as (w & Ew & E). apply bind_inv in E as (sc & _ & E).
    apply Ok_inj in E. injection E as <- <-. apply mapM_inv in Ew as [Lw Ew]. rewrite zrange_length in Lw.
    destruct (Ew (Z.to_nat (6 - J_min)) 6) as (y & Ey & Ny).
    { rewrite nth_error_zrange by lia. f_equal. lia. }
    exists (wj L (fun j => Lj_of L j 3 true) (fun j => Nj_of L j N 3 true) (fun j => L0_of j 3 true) psi flm 6), (Lj_of L 6 3 true), (Nj_of L 6 N 3 true), (L0_of 6 3 true), y.
    split; [apply LN_j_ok; lra|]. split; [apply lrd_nth; [lia|exact Ny]|]. split; [exact Ey|].
    intros n m Hn Hp Hm. destruct (six L true ltac:(lia)) as [H0 HLj].
    destruct (sz_facts L N J 3 true ltac:(lia) ltac:(lia) ltac:(lra) EJ 6 ltac:(lia)) as (Z1 & Z2 & Z3 & Z4).
    unfold wj, wavj. rewrite get3_mk by lia. rewrite (par3 L N true n ltac:(lia) ltac:(lia) Hp). destruct (Z.leb_spec (L0_of 6 3 true) 794); [|lia]. cbn [andb].
    apply nf_cadd_r, nf_cmul_r, nf_cmul_l. cbn [fst cconj64]. apply HI. lia.
  - intros a Ea. apply (HS1 f L spin s nside reality a); [lia|exact Ea].
Qed.

(*@ C90_ssht_synthesis *)
Lemma fp3_ssht_synthesis : forall fexp fpow flg jlg jexp fsum O J f_wav f_scal L N J_min spin s nside reality psi phi g,
  795 <= L <= 2 ^ 50 -> 1 <= N <= L -> j_max L 3 = Ok J -> J_min <= 6 -> Z.abs spin <= 794 ->
  accurate_exp fexp -> overflowing_exp fexp -> powers_of_three fpow J -> summation fsum -> documented_shapes (ssht_lib O) -> ssht_scheme s ->
  filters_directional_vectorised_fp fexp fpow flg J L N J_min (fint 3) spin 0 = Ok (psi, phi) \/
  filters_directional_jax_fp fexp fpow jlg jexp J L N J_min (fint 3) spin 0 = Ok (psi, phi) ->
  ssht_synthesis_fp fpow fsum O J f_wav f_scal L N J_min (fint 3) spin s reality (Some (psi, phi)) = Ok g ->
  exists flm, inv64 (ssht_lib O) flm L spin s nside reality = Ok g /\ rows flm = L /\ cols flm = 2 * L - 1 /\
    forall m, Z.abs m <= 794 -> is_finite (fst (get2 flm 794 (L - 1 + m))) = false.
Proof.
  intros fexp fpow flg jlg jexp fsum O J f_wav f_scal L N J_min spin s nside reality psi phi g HL HN EJ HJm Hs HE HO HP HM [HS1 HS2] Hsm EF E.
  pose proof (J3 L J HL EJ) as HJ. assert (HL' : 795 <= L <= 2 ^ 53) by (change (2 ^ 50) with 1125899906842624 in HL; lia).
  destruct (filt3 fexp fpow flg jlg jexp J L N J_min spin psi phi HL' ltac:(lia) HJm Hs HE HO HP EF) as ((D0 & D1 & D2 & D3 & D4) & HI).
  pose proof (szs3 fpow L N J true ltac:(lia) ltac:(lia) HP) as SZ.
  destruct (top3 L N J ltac:(lia) EJ ltac:(lia)) as [TS1 TS2].
  assert (SZ' : forall j, J_min <= j <= J -> LN_j_fp fpow L j N (fint 3) true = Ok (Lj_of L j 3 true, Nj_of L j N 3 true, L0_of j 3 true)) by (intros; apply SZ; lia).
  pose proof (proj2 (SZ J_min ltac:(lia))) as SL.
  assert (HLs : 1 <= Ls_of L J_min 3 true <= L) by (apply (Ls_range L J_min 3 true); [lia|lra]).
  assert (Szj : forall j, J_min <= j <= J -> 0 <= L0_of j 3 true <= Lj_of L j 3 true /\ 1 <= Lj_of L j 3 true <= L /\ 1 <= Nj_of L j N 3 true <= L).
  { intros j Hj. destruct (sz_facts L N J 3 true ltac:(lia) ltac:(lia) ltac:(lra) EJ j ltac:(lia)) as (Z1 & Z2 & Z3 & Z4). lia. }
  rewrite (csy64 fpow fsum L N J_min J (fint 3) (fun j => Lj_of L j 3 true) (fun j => Nj_of L j N 3 true) (fun j => L0_of j 3 true) (Ls_of L J_min 3 true)) with (nside := nside) in E; auto; try lia.
  - apply bind_inv in E as (S & _ & E). apply bind_inv in E as (Ts & _ & E).
    eexists. split; [exact E|]. split; [reflexivity|]. split; [reflexivity|]. intros m Hm.
    apply (syn_nf fsum L N J J_min true psi phi Ts S m HL HN EJ ltac:(lia) HM); [exact HI|exact Hm].
  - intros S ES. apply (HS1 f_scal (Ls_of L J_min 3 true) spin s nside reality S); [|exact ES]. apply (Ls_range L J_min 3 true); [lia|lra].
  - intros j fj T Hj _ ET. destruct (sz_facts L N J 3 true ltac:(lia) ltac:(lia) ltac:(lra) EJ j ltac:(lia)) as (Z1 & Z2 & Z3 & Z4).
    apply (HS2 fj _ _ _ s nside reality T) in ET; [exact ET|lia|lia].
Qed.

Lemma store_shapes : documented_shapes store.
Proof.
  split.
  - intros f L spin s nside reality a HL E. apply Ok_inj in E. subst a. split; reflexivity.
  - intros f L N L0 s nside reality a HL HN E. apply Ok_inj in E. subst a. repeat split; reflexivity.
Qed.
Lemma jm3 : j_max 1000 3 = Ok 7.
Proof. apply j_max_iff; [lia|lra|]. rewrite !(pw_IZR 3) by lia. change (3 ^ (7 - 1)) with 729. change (3 ^ 7) with 2187. lra. Qed.

(*% L = 1000 (J = 7), J_min = 6, full resolution, vanishing coefficients, and a library storing harmonic coefficients as they are *)
(*@E C90_example *)
Lemma ex_c90 : exists fexp fpow flg fsum O f_wav f_scal g, accurate_exp fexp /\ overflowing_exp fexp /\ powers_of_three fpow 7 /\
  summation fsum /\ documented_shapes O /\ j_max 1000 3 = Ok 7 /\
  synthesis_fp fexp fpow flg fsum O 7 f_wav f_scal 1000 1 6 (fint 3) 0 0 MW None false false = Ok g /\
  is_finite (fst (ndat64 g [794; 999])) = false.
Proof.
  destruct big_exp_ok as [H1 H2]. pose proof (pow3_ok 7) as H3.
  set (z := fun sh : list Z => Nd64 sh (fun _ => creal (fint 0))).
  set (fw := [z [1; 1000; 1999]; z [1; 1000; 1999]]). set (fs := z [1000; 1999]).
  destruct (fp3_filters_total big_exp pow3 7 1000 6 ltac:(lia) ltac:(lia) ltac:(lia) H3) as (_ & (kpsi & kphi & EA) & _).
  destruct (vec_fp_inv _ _ _ _ _ _ _ _ EA) as (R & k & _ & Rp & Cp & Lp & _).
  assert (HF : SpecFpDir.float_powers 1000 1) by (left; lia).
  pose proof (dir_vec_fp_ok big_exp pow3 (fun x => x) 7 1000 1 6 (fint 3) 0 kpsi kphi ltac:(lia) HF ltac:(lia) EA Rp Cp Lp) as EF.
  match type of EF with _ = Ok (?p, ?f) => set (psi := p) in EF; set (phi := f) in EF end.
  set (fsum := fun (_ _ : Z) xs => fold_right fadd (fint 0) xs). pose proof right_summation as HM. fold fsum in HM.
  assert (G : exists g, synthesis_fp big_exp pow3 (fun x => x) fsum store 7 fw fs 1000 1 6 (fint 3) 0 0 MW None false false = Ok g).
  { rewrite (synthesis64_ok big_exp pow3 (fun x => x) fsum 1000 1 6 7 (fint 3) false (fun _ => 1000) (fun _ => 1) (fun _ => 0) 1000) with (psi := psi) (phi := phi);
      try exact EF; try reflexivity; try lia; try (intros; lia).
    - replace (wavelet_shape_check_fp pow3 7 fw fs 1000 1 6 (fint 3) MW None false) with (Ok tt) by reflexivity. cbn [bind fwd64 store].
      change (zrange 6 (7 + 1)) with [6; 7]. eexists. reflexivity.
    - intros S E. apply (proj1 store_shapes) in E; [exact E|lia].
    - intros j fj T Hj _ E. apply (proj2 store_shapes) in E; [exact E|lia|lia]. }
  destruct G as [g G]. exists big_exp, pow3, (fun x => x), fsum, store, fw, fs, g.
  split; [exact H1|]. split; [exact H2|]. split; [exact H3|]. split; [exact HM|]. split; [exact store_shapes|]. split; [exact jm3|]. split; [exact G|].
  destruct (fp3_synthesis big_exp pow3 (fun x => x) fsum store 7 fw fs 1000 1 6 0 MW None false false g ltac:(lia) ltac:(lia) jm3 ltac:(lia) ltac:(lia) H1 H2 H3 HM store_shapes G) as (flm & E & _ & _ & N).
  cbn [inv64 store s2_f_shape ntheta nphi bind] in E. apply Ok_inj in E. rewrite <- E. cbn [ndat64]. exact (N 0 ltac:(lia)).
Qed.

(*% the analyses of a signal without samples of its own (zero coefficients), and the JAX synthesis, in multiresolution *)
Definition jst : jax64 := Jax64
  (fun f L spin ns s r => fwd64 store f L spin s ns r) (fun a L spin ns s r => inv64 store a L spin s ns r)
  (fun f L N ns s r _ L0 => wfwd64 store f L N L0 s r ns) (fun a L N ns s r _ L0 => winv64 store a L N L0 s r ns)
  (fun f _ L s r spin ns => fwd64 store f L spin s ns r) (fun a _ L s r spin ns => inv64 store a L spin s ns r)
  (fun f _ L N s r ns => wfwd64 store f L N 0 s r ns) (fun a _ L N s r ns => winv64 store a L N 0 s r ns).
Lemma jst_shapes : documented_shapes (jax_lib jst).
Proof. exact store_shapes. Qed.
Lemma mapM_all {A B} (F : A -> res B) l : (forall x, In x l -> exists y, F x = Ok y) -> exists ys, mapM F l = Ok ys.
Proof.
  induction l as [|a l IH]; intros H; [eexists; reflexivity|]. destruct (H a (or_introl eq_refl)) as [y Ey]. destruct IH as [ys Eys]; [intros x Hx; apply H; now right|].
  exists (y :: ys). cbn [mapM]. rewrite Ey. cbn [bind]. rewrite Eys. reflexivity.
Qed.
Lemma sto_winv a L N L0 y : winv64 store a L N L0 MW false None = Ok y -> forall n l q, ndat64 y [n; l; q] = get3 a n l q.
Proof. cbn [winv64 store so3_f_shape ntheta nphi bind]. intros E n l q. apply Ok_inj in E. rewrite <- E. reflexivity. Qed.
Lemma sto_inv a L y : inv64 store a L 0 MW None false = Ok y -> forall l q, ndat64 y [l; q] = get2 a l q.
Proof. cbn [inv64 store s2_f_shape ntheta nphi bind]. intros E l q. apply Ok_inj in E. rewrite <- E. reflexivity. Qed.
Lemma nd1000 : Nj_of 1000 6 1 3 true = 1 /\ Lj_of 1000 6 3 true = 1000.
Proof.
  destruct (sz_facts 1000 1 7 3 true ltac:(lia) ltac:(lia) ltac:(lra) jm3 6 ltac:(lia)) as (Z1 & Z2 & Z3 & Z4).
  destruct (six 1000 true ltac:(lia)). split; [lia|]. unfold Lj_of. change (jj 6) with 6. change (6 + 1) with 7. rewrite (pw_IZR 3) by lia. rewrite rceil_IZR. reflexivity.
Qed.
(*@E C90_jax_example *)
Lemma ex_c90_jax : exists fexp fpow flg fsum O Oj f f_wav f_scal psi phi w sc w' sc' g, accurate_exp fexp /\ overflowing_exp fexp /\ powers_of_three fpow 7 /\
  summation fsum /\ documented_shapes O /\ documented_shapes (jax_lib Oj) /\ j_max 1000 3 = Ok 7 /\
  filters_directional_vectorised_fp fexp fpow flg 7 1000 1 6 (fint 3) 0 0 = Ok (psi, phi) /\
  analysis_fp fexp fpow flg O 7 f 1000 1 6 (fint 3) 0 0 MW None false true = Ok (w, sc) /\
  jax_analysis_fp fpow Oj 7 f 1000 1 6 (fint 3) 0 MW None false (Some (psi, phi)) None = Ok (w', sc') /\
  jax_synthesis_fp fpow fsum Oj 7 f_wav f_scal 1000 1 6 (fint 3) 0 MW None false (Some (psi, phi)) None = Ok g /\
  (exists y y', lrd w 0 = Ok y /\ lrd w' 0 = Ok y' /\ is_finite (fst (ndat64 y [0; 794; 999])) = false /\ is_finite (fst (ndat64 y' [0; 794; 999])) = false) /\
  is_finite (fst (ndat64 g [794; 999])) = false.
Proof.
  destruct big_exp_ok as [H1 H2]. pose proof (pow3_ok 7) as H3.
  set (z := fun sh : list Z => Nd64 sh (fun _ => creal (fint 0))).
  set (fw := [z [1; 1000; 1999]; z [1; 1000; 1999]]). set (fs := z [729; 1457]). set (f := z [1000; 1999]).
  destruct (fp3_filters_total big_exp pow3 7 1000 6 ltac:(lia) ltac:(lia) ltac:(lia) H3) as (_ & (kpsi & kphi & EA) & _).
  destruct (vec_fp_inv _ _ _ _ _ _ _ _ EA) as (R & k & _ & Rp & Cp & Lp & _).
  assert (HF : SpecFpDir.float_powers 1000 1) by (left; lia).
  pose proof (dir_vec_fp_ok big_exp pow3 (fun x => x) 7 1000 1 6 (fint 3) 0 kpsi kphi ltac:(lia) HF ltac:(lia) EA Rp Cp Lp) as EF.
  match type of EF with _ = Ok (?p, ?f) => set (psi := p) in EF; set (phi := f) in EF end. clearbody psi phi.
  destruct (dims3 big_exp pow3 (fun x => x) 7 1000 1 6 0 psi phi ltac:(lia) EF) as (D0 & D1 & D2 & D3 & D4).
  set (fsum := fun (_ _ : Z) xs => fold_right fadd (fint 0) xs). pose proof right_summation as HM. fold fsum in HM. clearbody fsum.
  pose proof (szs3 pow3 1000 1 7 true ltac:(lia) ltac:(lia) H3) as SZ. pose proof jm3 as EJ.
  assert (HZ : forall j, 6 <= j <= 7 -> 1 <= Lj_of 1000 j 3 true <= 1000 /\ 1 <= Nj_of 1000 j 1 3 true <= Lj_of 1000 j 3 true /\ 0 <= L0_of j 3 true).
  { intros j Hj. destruct (sz_facts 1000 1 7 3 true ltac:(lia) ltac:(lia) ltac:(lra) EJ j ltac:(lia)) as (Z1 & Z2 & Z3 & Z4). lia. }
  assert (HLs : 1 <= Ls_of 1000 6 3 true <= 1000) by (apply (Ls_range 1000 6 3 true); [lia|lra]).
  destruct store_shapes as [S1 S2].
  assert (GA : exists w sc, analysis_fp big_exp pow3 (fun x => x) store 7 f 1000 1 6 (fint 3) 0 0 MW None false true = Ok (w, sc)).
  { rewrite (analysis64_ok big_exp pow3 (fun x => x) 1000 1 6 7 (fint 3) true (fun j => Lj_of 1000 j 3 true) (fun j => Nj_of 1000 j 1 3 true) (fun j => L0_of j 3 true) (Ls_of 1000 6 3 true)) with (psi := psi) (phi := phi);
      try assumption; try lia.
    - cbn [fwd64 store bind]. match goal with |- context [mapM ?F ?l] => destruct (mapM_all F l) as [ys ->] end; [intros; eexists; reflexivity|].
      cbn [bind inv64 store s2_f_shape ntheta nphi]. do 2 eexists. reflexivity.
    - intros j Hj. apply SZ. lia.
    - intros j Hj. destruct (sz_facts 1000 1 7 3 true ltac:(lia) ltac:(lia) ltac:(lra) EJ j ltac:(lia)) as (Z1 & Z2 & Z3 & Z4). lia.
    - apply SZ. lia.
    - exact I.
    - intros a E. apply (S1 f 1000 0 MW None false a); [lia|exact E]. }
  assert (GJ : exists w sc, jax_analysis_fp pow3 jst 7 f 1000 1 6 (fint 3) 0 MW None false (Some (psi, phi)) None = Ok (w, sc)).
  { rewrite (jan64 pow3 1000 1 6 7 (fint 3) (fun j => Lj_of 1000 j 3 true) (fun j => Nj_of 1000 j 1 3 true) (fun j => L0_of j 3 true) (Ls_of 1000 6 3 true));
      try assumption; try lia; [|..|left; reflexivity|].
    - cbn [fwd64 jax_lib jst jf64 store bind]. match goal with |- context [mapM ?F ?l] => destruct (mapM_all F l) as [ys ->] end; [intros; eexists; reflexivity|].
      cbn [bind inv64 jax_lib jst ji64]. destruct (_ =? 1); cbn [inv64 store bind s2_f_shape ntheta nphi]; do 2 eexists; reflexivity.
    - intros j Hj. apply SZ. lia.
    - intros j Hj. destruct (sz_facts 1000 1 7 3 true ltac:(lia) ltac:(lia) ltac:(lra) EJ j ltac:(lia)) as (Z1 & Z2 & Z3 & Z4). lia.
    - apply SZ. lia.
    - intros a E. apply (S1 f 1000 0 MW None false a); [lia|exact E]. }
  assert (GS : exists g, jax_synthesis_fp pow3 fsum jst 7 fw fs 1000 1 6 (fint 3) 0 MW None false (Some (psi, phi)) None = Ok g).
  { rewrite (jsy64 pow3 fsum 1000 1 6 7 (fint 3) (fun j => Lj_of 1000 j 3 true) (fun j => Nj_of 1000 j 1 3 true) (fun j => L0_of j 3 true) (Ls_of 1000 6 3 true));
      try assumption; try lia; [|..|left; reflexivity| |].
    - cbn [fwd64 jax_lib jst jf64 store bind]. match goal with |- context [mapM ?F ?l] => destruct (mapM_all F l) as [ys ->] end.
      + intros j Hj. apply In_zrange in Hj. assert (j = 6 \/ j = 7) as [-> | ->] by lia; eexists; reflexivity.
      + cbn [bind inv64 jax_lib jst ji64]. change (1000 =? 1) with false. cbn [inv64 store bind s2_f_shape ntheta nphi]. eexists; reflexivity.
    - intros j Hj. apply SZ. lia.
    - intros j Hj. destruct (sz_facts 1000 1 7 3 true ltac:(lia) ltac:(lia) ltac:(lra) EJ j ltac:(lia)) as (Z1 & Z2 & Z3 & Z4). lia.
    - apply SZ. lia.
    - intros S E. apply (S1 fs (Ls_of 1000 6 3 true) 0 MW None false S); [lia|exact E].
    - intros j fj T Hj _ E. destruct (HZ j ltac:(lia)). apply (S2 fj _ _ _ MW None false T) in E; [exact E|lia|lia]. }
  destruct GA as (w & sc & GA). destruct GJ as (w' & sc' & GJ). destruct GS as (g & GS).
  exists big_exp, pow3, (fun x => x), fsum, store, jst, f, fw, fs, psi, phi, w, sc, w', sc', g.
  split; [exact H1|]. split; [exact H2|]. split; [exact H3|]. split; [exact HM|]. split; [exact store_shapes|]. split; [exact jst_shapes|]. split; [exact EJ|].
  split; [exact EF|]. split; [exact GA|]. split; [exact GJ|]. split; [exact GS|]. destruct nd1000 as [N1 N2].
  pose proof (LN_j_ok 1000 6 1 3 true ltac:(lra)) as EL. rewrite N1, N2 in EL. split.
  - destruct (fp3_analysis big_exp pow3 (fun x => x) store 7 f 1000 1 6 0 MW None false true w sc ltac:(lia) ltac:(lia) EJ ltac:(lia) ltac:(lia) H1 H2 H3 store_shapes ltac:(discriminate) GA)
      as (flmn & Lj & Nj & L0j & y & E1 & E2 & E3 & E4).
    destruct (fp3_jax_analysis big_exp pow3 (fun x => x) (fun x => x) big_exp jst 7 f 1000 1 6 0 MW None false psi phi w' sc' ltac:(lia) ltac:(lia) EJ ltac:(lia) ltac:(lia) H1 H2 H3 jst_shapes (or_introl EF) GJ)
      as (flmn' & Lj' & Nj' & L0j' & y' & E1' & E2' & E3' & E4').
    rewrite EL in E1, E1'. apply Ok_inj in E1, E1'.
    assert (Lj = 1000 /\ Nj = 1 /\ Lj' = 1000 /\ Nj' = 1) as (-> & -> & -> & ->) by (repeat split; congruence).
    change (winv64 store flmn' 1000 1 L0j' MW false None = Ok y') in E3'.
    exists y, y'. split; [exact E2|]. split; [exact E2'|]. rewrite (sto_winv _ _ _ _ _ E3), (sto_winv _ _ _ _ _ E3').
    split; [exact (E4 0 0 ltac:(lia) eq_refl ltac:(lia))|exact (E4' 0 0 ltac:(lia) eq_refl ltac:(lia))].
  - destruct (fp3_jax_synthesis big_exp pow3 (fun x => x) (fun x => x) big_exp fsum jst 7 fw fs 1000 1 6 0 MW None false psi phi g ltac:(lia) ltac:(lia) EJ ltac:(lia) ltac:(lia) H1 H2 H3 HM jst_shapes (or_introl EF) GS)
      as (flm & E & _ & _ & NN).
    change (inv64 store flm 1000 0 MW None false = Ok g) in E. rewrite (sto_inv _ _ _ E). exact (NN 0 ltac:(lia)).
Qed.

Lemma pre_shapes : documented_shapes (pre_lib jst).
Proof. exact store_shapes. Qed.
(*@E C90_precompute_example *)
Lemma ex_c90_pre : exists fexp fpow flg fsum Oj f f_wav f_scal psi phi qa qs w' sc' g, accurate_exp fexp /\ overflowing_exp fexp /\ powers_of_three fpow 7 /\
  summation fsum /\ documented_shapes (pre_lib Oj) /\ j_max 1000 3 = Ok 7 /\
  filters_directional_vectorised_fp fexp fpow flg 7 1000 1 6 (fint 3) 0 0 = Ok (psi, phi) /\
  generate_full_precomputes_fp fpow 7 1000 1 6 (fint 3) MW None false false false = Ok qa /\ generate_full_precomputes_fp fpow 7 1000 1 6 (fint 3) MW None true false false = Ok qs /\
  pre_analysis_fp fpow Oj 7 f 1000 1 6 (fint 3) 0 MW None false (Some (psi, phi)) (Some qa) = Ok (w', sc') /\
  pre_synthesis_fp fpow fsum Oj 7 f_wav f_scal 1000 1 6 (fint 3) 0 MW None false (Some (psi, phi)) (Some qs) = Ok g /\
  (exists y', lrd w' 0 = Ok y' /\ is_finite (fst (ndat64 y' [0; 794; 999])) = false) /\
  is_finite (fst (ndat64 g [794; 999])) = false.
Proof.
  destruct big_exp_ok as [H1 H2]. pose proof (pow3_ok 7) as H3.
  set (z := fun sh : list Z => Nd64 sh (fun _ => creal (fint 0))).
  set (fw := [z [1; 1000; 1999]; z [1; 1000; 1999]]). set (fs := z [729; 1457]). set (f := z [1000; 1999]).
  destruct (fp3_filters_total big_exp pow3 7 1000 6 ltac:(lia) ltac:(lia) ltac:(lia) H3) as (_ & (kpsi & kphi & EA) & _).
  destruct (vec_fp_inv _ _ _ _ _ _ _ _ EA) as (R & k & _ & Rp & Cp & Lp & _).
  assert (HF : SpecFpDir.float_powers 1000 1) by (left; lia).
  pose proof (dir_vec_fp_ok big_exp pow3 (fun x => x) 7 1000 1 6 (fint 3) 0 kpsi kphi ltac:(lia) HF ltac:(lia) EA Rp Cp Lp) as EF.
  match type of EF with _ = Ok (?p, ?f) => set (psi := p) in EF; set (phi := f) in EF end. clearbody psi phi.
  destruct (dims3 big_exp pow3 (fun x => x) 7 1000 1 6 0 psi phi ltac:(lia) EF) as (D0 & D1 & D2 & D3 & D4).
  set (fsum := fun (_ _ : Z) xs => fold_right fadd (fint 0) xs). pose proof right_summation as HM. fold fsum in HM. clearbody fsum.
  pose proof (szs3 pow3 1000 1 7 true ltac:(lia) ltac:(lia) H3) as SZ. pose proof jm3 as EJ.
  assert (HZ : forall j, 6 <= j <= 7 -> 1 <= Lj_of 1000 j 3 true <= 1000 /\ 1 <= Nj_of 1000 j 1 3 true <= Lj_of 1000 j 3 true /\ 0 <= L0_of j 3 true).
  { intros j Hj. destruct (sz_facts 1000 1 7 3 true ltac:(lia) ltac:(lia) ltac:(lra) EJ j ltac:(lia)) as (Z1 & Z2 & Z3 & Z4). lia. }
  assert (HLs : 1 <= Ls_of 1000 6 3 true <= 1000) by (apply (Ls_range 1000 6 3 true); [lia|lra]).
  destruct store_shapes as [S1 S2].
  destruct (top3 1000 1 7 ltac:(lia) EJ ltac:(lia)) as [TS1 TS2].
  assert (SZ' : forall j, 6 <= j <= 7 -> LN_j_fp pow3 1000 j 1 (fint 3) true = Ok (Lj_of 1000 j 3 true, Nj_of 1000 j 1 3 true, L0_of j 3 true)) by (intros; apply SZ; lia).
  pose proof (proj2 (SZ 6 ltac:(lia))) as SL.
  assert (Szj : forall j, 6 <= j <= 7 -> 0 <= L0_of j 3 true <= Lj_of 1000 j 3 true /\ 1 <= Lj_of 1000 j 3 true <= 1000 /\ 1 <= Nj_of 1000 j 1 3 true <= 1000).
  { intros j Hj. destruct (sz_facts 1000 1 7 3 true ltac:(lia) ltac:(lia) ltac:(lra) EJ j ltac:(lia)) as (Z1 & Z2 & Z3 & Z4). lia. }
  pose proof (gen_full64 pow3 1000 1 6 7 (fint 3) (fun j => Lj_of 1000 j 3 true) (fun j => Nj_of 1000 j 1 3 true) (fun j => L0_of j 3 true) (Ls_of 1000 6 3 true) ltac:(lia) SZ' SL) as GF.
  pose proof (GF MW None false false false) as Qa. pose proof (GF MW None true false false) as Qs. cbn [negb] in Qa, Qs.
  assert (GJ : exists w sc, pre_analysis_fp pow3 jst 7 f 1000 1 6 (fint 3) 0 MW None false (Some (psi, phi)) (Some (Some (SKern 1000 0 false MW None true), Some (SKern (Ls_of 1000 6 3 true) 0 false MW None false), map (wk (fun j => Lj_of 1000 j 3 true) (fun j => Nj_of 1000 j 1 3 true) MW None false false) (zrange 6 7))) = Ok (w, sc)).
  { rewrite (pan64 pow3 1000 1 6 7 (fint 3) (fun j => Lj_of 1000 j 3 true) (fun j => Nj_of 1000 j 1 3 true) (fun j => L0_of j 3 true) (Ls_of 1000 6 3 true));
      try assumption; try lia.
    - cbn [fwd64 pre_lib jst pf64 store bind]. match goal with |- context [mapM ?F ?l] => destruct (mapM_all F l) as [ys ->] end; [intros; eexists; reflexivity|].
      cbn [bind inv64 pre_lib jst pi64]. destruct (_ =? 1); cbn [inv64 store bind s2_f_shape ntheta nphi]; do 2 eexists; reflexivity.
    - intros a E. apply (S1 f 1000 0 MW None false a); [lia|exact E]. }
  assert (GS : exists g, pre_synthesis_fp pow3 fsum jst 7 fw fs 1000 1 6 (fint 3) 0 MW None false (Some (psi, phi)) (Some (Some (SKern 1000 0 false MW None false), Some (SKern (Ls_of 1000 6 3 true) 0 false MW None true), map (wk (fun j => Lj_of 1000 j 3 true) (fun j => Nj_of 1000 j 1 3 true) MW None true false) (zrange 6 7))) = Ok g).
  { rewrite (psy64 pow3 fsum 1000 1 6 7 (fint 3) (fun j => Lj_of 1000 j 3 true) (fun j => Nj_of 1000 j 1 3 true) (fun j => L0_of j 3 true) (Ls_of 1000 6 3 true));
      try assumption; try lia.
    - cbn [fwd64 pre_lib jst pf64 store bind]. match goal with |- context [mapM ?F ?l] => destruct (mapM_all F l) as [ys ->] end.
      + intros j Hj. apply In_zrange in Hj. assert (j = 6 \/ j = 7) as [-> | ->] by lia; eexists; reflexivity.
      + cbn [bind inv64 pre_lib jst pi64]. change (1000 =? 1) with false. cbn [inv64 store bind s2_f_shape ntheta nphi]. eexists; reflexivity.
    - intros S E. apply (S1 fs (Ls_of 1000 6 3 true) 0 MW None false S); [lia|exact E].
    - intros j fj T Hj _ E. destruct (HZ j ltac:(lia)). apply (S2 fj _ _ _ MW None false T) in E; [exact E|lia|lia]. }
  destruct GJ as (w' & sc' & GJ). destruct GS as (g & GS).
  do 3 eexists. exists fsum, jst, f, fw, fs, psi, phi. do 2 eexists. exists w', sc', g.
  split; [exact H1|]. split; [exact H2|]. split; [exact H3|]. split; [exact HM|]. split; [exact pre_shapes|]. split; [exact EJ|].
  split; [exact EF|]. split; [exact Qa|]. split; [exact Qs|]. split; [exact GJ|]. split; [exact GS|]. destruct nd1000 as [N1 N2].
  pose proof (LN_j_ok 1000 6 1 3 true ltac:(lra)) as EL. rewrite N1, N2 in EL. split.
  - destruct (fp3_pre_analysis big_exp pow3 (fun x => x) (fun x => x) big_exp jst 7 f 1000 1 6 0 MW None false psi phi _ w' sc' ltac:(lia) ltac:(lia) EJ ltac:(lia) ltac:(lia) H1 H2 H3 pre_shapes (or_introl EF) Qa GJ)
      as (flmn' & Lj' & Nj' & L0j' & y' & E1' & E2' & E3' & E4').
    rewrite EL in E1'. apply Ok_inj in E1'.
    assert (Lj' = 1000 /\ Nj' = 1) as (-> & ->) by (repeat split; congruence).
    change (winv64 store flmn' 1000 1 L0j' MW false None = Ok y') in E3'.
    exists y'. split; [exact E2'|]. rewrite (sto_winv _ _ _ _ _ E3').
    exact (E4' 0 0 ltac:(lia) eq_refl ltac:(lia)).
  - destruct (fp3_pre_synthesis big_exp pow3 (fun x => x) (fun x => x) big_exp fsum jst 7 fw fs 1000 1 6 0 MW None false psi phi _ g ltac:(lia) ltac:(lia) EJ ltac:(lia) ltac:(lia) H1 H2 H3 HM pre_shapes (or_introl EF) Qs GS)
      as (flm & E & _ & _ & NN).
    change (inv64 store flm 1000 0 MW None false = Ok g) in E. rewrite (sto_inv _ _ _ E). exact (NN 0 ltac:(lia)).
Qed.

Lemma torch_shapes : documented_shapes (torch_lib (back_of jst)).
Proof. exact store_shapes. Qed.
(*@E C90_torch_example *)
Lemma ex_c90_torch : exists fexp fpow flg fsum Oj f f_wav f_scal psi phi qa qs w' sc' g, accurate_exp fexp /\ overflowing_exp fexp /\ powers_of_three fpow 7 /\
  summation fsum /\ documented_shapes (torch_lib Oj) /\ j_max 1000 3 = Ok 7 /\
  filters_directional_vectorised_fp fexp fpow flg 7 1000 1 6 (fint 3) 0 0 = Ok (psi, phi) /\
  generate_full_precomputes_fp fpow 7 1000 1 6 (fint 3) MW None false false false = Ok qa /\ generate_full_precomputes_fp fpow 7 1000 1 6 (fint 3) MW None true false false = Ok qs /\
  torch_analysis_fp fpow Oj 7 f 1000 1 6 (fint 3) 0 MW None false (Some (psi, phi)) (Some qa) = Ok (w', sc') /\
  torch_synthesis_fp fpow fsum Oj 7 f_wav f_scal 1000 1 6 (fint 3) 0 MW None false (Some (psi, phi)) (Some qs) = Ok g /\
  (exists y', lrd w' 0 = Ok (Some y') /\ is_finite (fst (ndat64 y' [0; 794; 999])) = false) /\
  is_finite (fst (ndat64 g [794; 999])) = false.
Proof.
  destruct big_exp_ok as [H1 H2]. pose proof (pow3_ok 7) as H3.
  set (z := fun sh : list Z => Nd64 sh (fun _ => creal (fint 0))).
  set (fw := [z [1; 1000; 1999]; z [1; 1000; 1999]]). set (fs := z [729; 1457]). set (f := z [1000; 1999]).
  destruct (fp3_filters_total big_exp pow3 7 1000 6 ltac:(lia) ltac:(lia) ltac:(lia) H3) as (_ & (kpsi & kphi & EA) & _).
  destruct (vec_fp_inv _ _ _ _ _ _ _ _ EA) as (R & k & _ & Rp & Cp & Lp & _).
  assert (HF : SpecFpDir.float_powers 1000 1) by (left; lia).
  pose proof (dir_vec_fp_ok big_exp pow3 (fun x => x) 7 1000 1 6 (fint 3) 0 kpsi kphi ltac:(lia) HF ltac:(lia) EA Rp Cp Lp) as EF.
  match type of EF with _ = Ok (?p, ?f) => set (psi := p) in EF; set (phi := f) in EF end. clearbody psi phi.
  destruct (dims3 big_exp pow3 (fun x => x) 7 1000 1 6 0 psi phi ltac:(lia) EF) as (D0 & D1 & D2 & D3 & D4).
  set (fsum := fun (_ _ : Z) xs => fold_right fadd (fint 0) xs). pose proof right_summation as HM. fold fsum in HM. clearbody fsum.
  pose proof (szs3 pow3 1000 1 7 true ltac:(lia) ltac:(lia) H3) as SZ. pose proof jm3 as EJ.
  assert (HZ : forall j, 6 <= j <= 7 -> 1 <= Lj_of 1000 j 3 true <= 1000 /\ 1 <= Nj_of 1000 j 1 3 true <= Lj_of 1000 j 3 true /\ 0 <= L0_of j 3 true).
  { intros j Hj. destruct (sz_facts 1000 1 7 3 true ltac:(lia) ltac:(lia) ltac:(lra) EJ j ltac:(lia)) as (Z1 & Z2 & Z3 & Z4). lia. }
  assert (HLs : 1 <= Ls_of 1000 6 3 true <= 1000) by (apply (Ls_range 1000 6 3 true); [lia|lra]).
  destruct store_shapes as [S1 S2].
  destruct (top3 1000 1 7 ltac:(lia) EJ ltac:(lia)) as [TS1 TS2].
  assert (SZ' : forall j, 6 <= j <= 7 -> LN_j_fp pow3 1000 j 1 (fint 3) true = Ok (Lj_of 1000 j 3 true, Nj_of 1000 j 1 3 true, L0_of j 3 true)) by (intros; apply SZ; lia).
  pose proof (proj2 (SZ 6 ltac:(lia))) as SL.
  assert (Szj : forall j, 6 <= j <= 7 -> 0 <= L0_of j 3 true <= Lj_of 1000 j 3 true /\ 1 <= Lj_of 1000 j 3 true <= 1000 /\ 1 <= Nj_of 1000 j 1 3 true <= 1000).
  { intros j Hj. destruct (sz_facts 1000 1 7 3 true ltac:(lia) ltac:(lia) ltac:(lra) EJ j ltac:(lia)) as (Z1 & Z2 & Z3 & Z4). lia. }
  pose proof (gen_full64 pow3 1000 1 6 7 (fint 3) (fun j => Lj_of 1000 j 3 true) (fun j => Nj_of 1000 j 1 3 true) (fun j => L0_of j 3 true) (Ls_of 1000 6 3 true) ltac:(lia) SZ' SL) as GF.
  pose proof (GF MW None false false false) as Qa. pose proof (GF MW None true false false) as Qs. cbn [negb] in Qa, Qs.
  assert (GJ : exists w sc, torch_analysis_fp pow3 (back_of jst) 7 f 1000 1 6 (fint 3) 0 MW None false (Some (psi, phi)) (Some (Some (SKern 1000 0 false MW None true), Some (SKern (Ls_of 1000 6 3 true) 0 false MW None false), map (wk (fun j => Lj_of 1000 j 3 true) (fun j => Nj_of 1000 j 1 3 true) MW None false false) (zrange 6 7))) = Ok (w, sc)).
  { rewrite (tan64 pow3 1000 1 6 7 (fint 3) (fun j => Lj_of 1000 j 3 true) (fun j => Nj_of 1000 j 1 3 true) (fun j => L0_of j 3 true) (Ls_of 1000 6 3 true));
      try assumption; try lia.
    - cbn [fwd64 torch_lib pre_lib as_jax back_of jst tf64 pf64 store bind]. match goal with |- context [mapM ?F ?l] => destruct (mapM_all F l) as [ys ->] end; [intros; eexists; reflexivity|].
      cbn [bind inv64 torch_lib pre_lib as_jax back_of jst ti64 pi64]. destruct (_ =? 1); cbn [inv64 store bind s2_f_shape ntheta nphi]; do 2 eexists; reflexivity.
    - intros a E. apply (S1 f 1000 0 MW None false a); [lia|exact E]. }
  assert (GS : exists g, torch_synthesis_fp pow3 fsum (back_of jst) 7 fw fs 1000 1 6 (fint 3) 0 MW None false (Some (psi, phi)) (Some (Some (SKern 1000 0 false MW None false), Some (SKern (Ls_of 1000 6 3 true) 0 false MW None true), map (wk (fun j => Lj_of 1000 j 3 true) (fun j => Nj_of 1000 j 1 3 true) MW None true false) (zrange 6 7))) = Ok g).
  { rewrite torch_sy_as.
    rewrite (psy64 pow3 fsum 1000 1 6 7 (fint 3) (fun j => Lj_of 1000 j 3 true) (fun j => Nj_of 1000 j 1 3 true) (fun j => L0_of j 3 true) (Ls_of 1000 6 3 true));
      try assumption; try lia.
    - cbn [fwd64 torch_lib pre_lib as_jax back_of jst tf64 pf64 store bind]. match goal with |- context [mapM ?F ?l] => destruct (mapM_all F l) as [ys ->] end.
      + intros j Hj. apply In_zrange in Hj. assert (j = 6 \/ j = 7) as [-> | ->] by lia; eexists; reflexivity.
      + cbn [bind inv64 torch_lib pre_lib as_jax back_of jst ti64 pi64]. change (1000 =? 1) with false. cbn [inv64 store bind s2_f_shape ntheta nphi]. eexists; reflexivity.
    - intros S E. apply (S1 fs (Ls_of 1000 6 3 true) 0 MW None false S); [lia|exact E].
    - intros j fj T Hj _ E. destruct (HZ j ltac:(lia)). apply (S2 fj _ _ _ MW None false T) in E; [exact E|lia|lia]. }
  destruct GJ as (w' & sc' & GJ). destruct GS as (g & GS).
  do 3 eexists. exists fsum, (back_of jst), f, fw, fs, psi, phi. do 2 eexists. exists w', sc', g.
  split; [exact H1|]. split; [exact H2|]. split; [exact H3|]. split; [exact HM|]. split; [exact torch_shapes|]. split; [exact EJ|].
  split; [exact EF|]. split; [exact Qa|]. split; [exact Qs|]. split; [exact GJ|]. split; [exact GS|]. destruct nd1000 as [N1 N2].
  pose proof (LN_j_ok 1000 6 1 3 true ltac:(lra)) as EL. rewrite N1, N2 in EL. split.
  - destruct (fp3_torch_analysis big_exp pow3 (fun x => x) (fun x => x) big_exp (back_of jst) 7 f 1000 1 6 0 MW None false psi phi _ w' sc' ltac:(lia) ltac:(lia) EJ ltac:(lia) ltac:(lia) H1 H2 H3 torch_shapes (or_introl EF) Qa GJ)
      as (flmn' & Lj' & Nj' & L0j' & y' & E1' & E2' & E3' & E4').
    rewrite EL in E1'. apply Ok_inj in E1'.
    assert (Lj' = 1000 /\ Nj' = 1) as (-> & ->) by (repeat split; congruence).
    change (winv64 store flmn' 1000 1 L0j' MW false None = Ok y') in E3'.
    exists y'. split; [exact E2'|]. rewrite (sto_winv _ _ _ _ _ E3').
    exact (E4' 0 0 ltac:(lia) eq_refl ltac:(lia)).
  - destruct (fp3_torch_synthesis big_exp pow3 (fun x => x) (fun x => x) big_exp fsum (back_of jst) 7 fw fs 1000 1 6 0 MW None false psi phi _ g ltac:(lia) ltac:(lia) EJ ltac:(lia) ltac:(lia) H1 H2 H3 HM torch_shapes (or_introl EF) Qs GS)
      as (flm & E & _ & _ & NN).
    change (inv64 store flm 1000 0 MW None false = Ok g) in E. rewrite (sto_inv _ _ _ E). exact (NN 0 ltac:(lia)).
Qed.

Lemma ssht_shapes : documented_shapes (ssht_lib (back_of jst)).
Proof.
  split.
  - intros f L spin s nside reality a HL E. apply Ok_inj in E. subst a. split; reflexivity.
  - intros f L N L0 s nside reality a HL HN E. apply Ok_inj in E. subst a. repeat split; reflexivity.
Qed.
(*@E C90_ssht_example *)
Lemma ex_c90_ssht : exists fexp fpow flg fsum Oj f f_wav f_scal psi phi w' sc' g, accurate_exp fexp /\ overflowing_exp fexp /\ powers_of_three fpow 7 /\
  summation fsum /\ documented_shapes (ssht_lib Oj) /\ j_max 1000 3 = Ok 7 /\
  filters_directional_vectorised_fp fexp fpow flg 7 1000 1 6 (fint 3) 0 0 = Ok (psi, phi) /\
  ssht_analysis_fp fpow Oj 7 f 1000 1 6 (fint 3) 0 MW false (Some (psi, phi)) = Ok (w', sc') /\
  ssht_synthesis_fp fpow fsum Oj 7 f_wav f_scal 1000 1 6 (fint 3) 0 MW false (Some (psi, phi)) = Ok g /\
  (exists y', lrd w' 0 = Ok y' /\ is_finite (fst (ndat64 y' [0; 794; 999])) = false) /\
  is_finite (fst (ndat64 g [794; 999])) = false.
Proof.
  destruct big_exp_ok as [H1 H2]. pose proof (pow3_ok 7) as H3.
  set (z := fun sh : list Z => Nd64 sh (fun _ => creal (fint 0))).
  set (fw := [z [1; 1000; 1999]; z [1; 1000; 1999]]). set (fs := z [729; 1457]). set (f := z [1000; 1999]).
  destruct (fp3_filters_total big_exp pow3 7 1000 6 ltac:(lia) ltac:(lia) ltac:(lia) H3) as (_ & (kpsi & kphi & EA) & _).
  destruct (vec_fp_inv _ _ _ _ _ _ _ _ EA) as (R & k & _ & Rp & Cp & Lp & _).
  assert (HF : SpecFpDir.float_powers 1000 1) by (left; lia).
  pose proof (dir_vec_fp_ok big_exp pow3 (fun x => x) 7 1000 1 6 (fint 3) 0 kpsi kphi ltac:(lia) HF ltac:(lia) EA Rp Cp Lp) as EF.
  match type of EF with _ = Ok (?p, ?f) => set (psi := p) in EF; set (phi := f) in EF end. clearbody psi phi.
  destruct (dims3 big_exp pow3 (fun x => x) 7 1000 1 6 0 psi phi ltac:(lia) EF) as (D0 & D1 & D2 & D3 & D4).
  set (fsum := fun (_ _ : Z) xs => fold_right fadd (fint 0) xs). pose proof right_summation as HM. fold fsum in HM. clearbody fsum.
  pose proof (szs3 pow3 1000 1 7 true ltac:(lia) ltac:(lia) H3) as SZ. pose proof jm3 as EJ.
  assert (HZ : forall j, 6 <= j <= 7 -> 1 <= Lj_of 1000 j 3 true <= 1000 /\ 1 <= Nj_of 1000 j 1 3 true <= Lj_of 1000 j 3 true /\ 0 <= L0_of j 3 true).
  { intros j Hj. destruct (sz_facts 1000 1 7 3 true ltac:(lia) ltac:(lia) ltac:(lra) EJ j ltac:(lia)) as (Z1 & Z2 & Z3 & Z4). lia. }
  assert (HLs : 1 <= Ls_of 1000 6 3 true <= 1000) by (apply (Ls_range 1000 6 3 true); [lia|lra]).
  destruct store_shapes as [S1 S2].
  destruct (top3 1000 1 7 ltac:(lia) EJ ltac:(lia)) as [TS1 TS2].
  assert (SZ' : forall j, 6 <= j <= 7 -> LN_j_fp pow3 1000 j 1 (fint 3) true = Ok (Lj_of 1000 j 3 true, Nj_of 1000 j 1 3 true, L0_of j 3 true)) by (intros; apply SZ; lia).
  pose proof (proj2 (SZ 6 ltac:(lia))) as SL.
  assert (Szj : forall j, 6 <= j <= 7 -> 0 <= L0_of j 3 true <= Lj_of 1000 j 3 true /\ 1 <= Lj_of 1000 j 3 true <= 1000 /\ 1 <= Nj_of 1000 j 1 3 true <= 1000).
  { intros j Hj. destruct (sz_facts 1000 1 7 3 true ltac:(lia) ltac:(lia) ltac:(lra) EJ j ltac:(lia)) as (Z1 & Z2 & Z3 & Z4). lia. }
  assert (GJ : exists w sc, ssht_analysis_fp pow3 (back_of jst) 7 f 1000 1 6 (fint 3) 0 MW false (Some (psi, phi)) = Ok (w, sc)).
  { rewrite (can64 pow3 1000 1 6 7 (fint 3) (fun j => Lj_of 1000 j 3 true) (fun j => Nj_of 1000 j 1 3 true) (fun j => L0_of j 3 true) (Ls_of 1000 6 3 true)) with (nside := None);
      try assumption; try lia; try match goal with |- ssht_scheme _ => exact I | |- false = true -> _ => intros HH; discriminate HH end.
    - cbn [fwd64 ssht_lib back_of jst cf64 jf64 store bind]. match goal with |- context [mapM ?F ?l] => destruct (mapM_all F l) as [ys ->] end; [intros; eexists; reflexivity|].
      cbn [bind inv64 ssht_lib back_of jst ci64 ji64]. destruct (_ =? 1); cbn [inv64 store bind s2_f_shape ntheta nphi]; do 2 eexists; reflexivity.
    - intros a E. apply (S1 f 1000 0 MW None false a); [lia|exact E]. }
  assert (GS : exists g, ssht_synthesis_fp pow3 fsum (back_of jst) 7 fw fs 1000 1 6 (fint 3) 0 MW false (Some (psi, phi)) = Ok g).
  { rewrite (csy64 pow3 fsum 1000 1 6 7 (fint 3) (fun j => Lj_of 1000 j 3 true) (fun j => Nj_of 1000 j 1 3 true) (fun j => L0_of j 3 true) (Ls_of 1000 6 3 true)) with (nside := None);
      try assumption; try lia; try match goal with |- ssht_scheme _ => exact I | |- false = true -> _ => intros HH; discriminate HH end.
    - cbn [fwd64 ssht_lib back_of jst cf64 jf64 store bind]. match goal with |- context [mapM ?F ?l] => destruct (mapM_all F l) as [ys ->] end.
      + intros j Hj. apply In_zrange in Hj. assert (j = 6 \/ j = 7) as [-> | ->] by lia; eexists; reflexivity.
      + cbn [bind inv64 ssht_lib back_of jst ci64 ji64]. change (1000 =? 1) with false. cbn [inv64 store bind s2_f_shape ntheta nphi]. eexists; reflexivity.
    - intros S E. apply (S1 fs (Ls_of 1000 6 3 true) 0 MW None false S); [lia|exact E].
    - intros j fj T Hj _ E. destruct (HZ j ltac:(lia)). apply (S2 fj _ _ _ MW None false T) in E; [exact E|lia|lia]. }
  destruct GJ as (w' & sc' & GJ). destruct GS as (g & GS).
  do 3 eexists. exists fsum, (back_of jst), f, fw, fs, psi, phi. exists w', sc', g.
  split; [exact H1|]. split; [exact H2|]. split; [exact H3|]. split; [exact HM|]. split; [exact ssht_shapes|]. split; [exact EJ|].
  split; [exact EF|]. split; [exact GJ|]. split; [exact GS|]. destruct nd1000 as [N1 N2].
  pose proof (LN_j_ok 1000 6 1 3 true ltac:(lra)) as EL. rewrite N1, N2 in EL. split.
  - destruct (fp3_ssht_analysis big_exp pow3 (fun x => x) (fun x => x) big_exp (back_of jst) 7 f 1000 1 6 0 MW None false psi phi w' sc' ltac:(lia) ltac:(lia) EJ ltac:(lia) ltac:(lia) H1 H2 H3 ssht_shapes I ltac:(discriminate) (or_introl EF) GJ)
      as (flmn' & Lj' & Nj' & L0j' & y' & E1' & E2' & E3' & E4').
    rewrite EL in E1'. apply Ok_inj in E1'.
    assert (Lj' = 1000 /\ Nj' = 1) as (-> & ->) by (repeat split; congruence).
    change (winv64 store flmn' 1000 1 L0j' MW false None = Ok y') in E3'.
    exists y'. split; [exact E2'|]. rewrite (sto_winv _ _ _ _ _ E3').
    exact (E4' 0 0 ltac:(lia) eq_refl ltac:(lia)).
  - destruct (fp3_ssht_synthesis big_exp pow3 (fun x => x) (fun x => x) big_exp fsum (back_of jst) 7 fw fs 1000 1 6 0 MW None false psi phi g ltac:(lia) ltac:(lia) EJ ltac:(lia) ltac:(lia) H1 H2 H3 HM ssht_shapes I (or_introl EF) GS)
      as (flm & E & _ & _ & NN).
    change (inv64 store flm 1000 0 MW None false = Ok g) in E. rewrite (sto_inv _ _ _ E). exact (NN 0 ltac:(lia)).
Qed.
