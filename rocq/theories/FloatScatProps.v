(** Statements and proofs for PropertiesFloatScat.v *)

From Coq Require Import ZArith Reals List Bool Lia Lra FunctionalExtensionality.
From Coquelicot Require Import Rcomplements Complex.
From Flocq Require Import Core IEEE754.BinarySingleNaN.
From Verif Require Import Py PyFacts ModelSamples SamplesFacts ModelFilters ModelTransforms Spec SpecTransforms TransformsFacts BackendFacts FrameProps.
From Verif Require Import ModelFloat ModelFloatDir ModelFloatTrans ModelFloatScat SpecFp SpecFpDir SpecFpTrans SpecFpScat FloatDefault FloatDirProps FloatTransErr FloatTransProps SamplesProps.
From Verif Require Import FloatFacts.
Import ListNotations.
Open Scope Z_scope.

(*T The scattering flag in binary64 *)
(*! From Coq Require Import ZArith Reals List Bool. *)
(*! From Coquelicot Require Import Complex. *)
(*! From Flocq Require Import Core IEEE754.BinarySingleNaN. *)
(*! From Verif Require Import Py ModelSamples ModelFilters ModelFloat ModelFloatDir ModelFloatTrans ModelFloatScat Spec SpecTransforms SpecFp SpecFpDir SpecFpTrans SpecFpScat. *)

(*% ** C81: the scattering flag in binary64 *)

(*@ C81_flag_off *)
Lemma scat_off : forall fexp fpow flg fhyp O J f L N J_min lam spin spin0 s nside reality mr,
  analysis_flag_fp fexp fpow flg fhyp O J f L N J_min lam spin spin0 s nside reality mr false
  = analysis_fp fexp fpow flg O J f L N J_min lam spin spin0 s nside reality mr.
Proof.
  intros fexp fpow flg fhyp O J f L N J_min lam spin spin0 s nside reality mr. unfold analysis_flag_fp, analysis_fp.
  do 4 (apply bind_ext; intros ? _). apply bind_ext. intros [psi phi] _. do 2 (apply bind_ext; intros ? _).
  match goal with |- bind (for_ ?is ?st ?b1) _ = bind (for_ _ _ ?b2) _ => assert (E : b1 = b2) end.
  { apply functional_extensionality. intros j. apply functional_extensionality. intros [l w].
    apply bind_ext. intros [[Lj Nj] L0j] _. do 6 (apply bind_ext; intros ? _). destruct (lwr w _ _); reflexivity. }
  now rewrite E.
Qed.

Lemma abs64_zeros fhyp sh z : fhyp (fint 0) (fint 0) = fint 0 -> zeros_nd64 sh = Ok z -> nd_abs64 fhyp z = z.
Proof.
  intros H0. unfold zeros_nd64. destruct (forallb _ _); [|discriminate]. intros H. apply Ok_inj in H. subst z.
  unfold nd_abs64. cbn [nshape64 ndat64 creal fst snd]. f_equal. apply functional_extensionality. intros _. now rewrite H0.
Qed.
Lemma construct_f64_abs fhyp fpow J L N J_min lam s nside mr w : fhyp (fint 0) (fint 0) = fint 0 ->
  construct_f_fp fpow J L N J_min lam s nside mr = Ok w -> map (nd_abs64 fhyp) w = w.
Proof.
  intros H0. unfold construct_f_fp. set (b := fun _ _ => _).
  assert (Hi : map (nd_abs64 fhyp) (@nil nd64) = []) by reflexivity. revert Hi. generalize (@nil nd64) as acc.
  induction (zrange J_min (J + 1)) as [|j l IH]; intros acc Ha H; cbn [for_] in H.
  - apply Ok_inj in H. now subst.
  - apply bind_inv in H as (acc' & Hb & H). apply (IH acc'); auto. unfold b in Hb.
    apply bind_inv in Hb as (sh & _ & Hb). apply bind_inv in Hb as (z & Ez & Hb). apply Ok_inj in Hb. subst acc'.
    rewrite map_app, Ha. cbn [map]. now rewrite (abs64_zeros fhyp sh z H0 Ez).
Qed.

(*@ C81_flag_on *)
Lemma scat_on : forall fexp fpow flg fhyp O J f L N J_min lam spin spin0 s nside reality mr,
  accurate_hypot fhyp ->
  analysis_flag_fp fexp fpow flg fhyp O J f L N J_min lam spin spin0 s nside reality mr true
  = (' (w, sc) <- analysis_fp fexp fpow flg O J f L N J_min lam spin spin0 s nside reality mr ;;
     Ok (map (nd_abs64 fhyp) w, sc)).
Proof.
  intros fexp fpow flg fhyp O J f L N J_min lam spin spin0 s nside reality mr [H0 _]. unfold analysis_flag_fp, analysis_fp.
  destruct (scal_bandlimit_fp fpow L J_min lam mr) as [Ls|]; cbn [bind]; [|reflexivity].
  destruct (construct_flm_fp fpow L J_min lam mr); cbn [bind]; [|reflexivity].
  destruct (construct_flmn_fp fpow J L N J_min lam mr) as [lmn|]; cbn [bind]; [|reflexivity].
  destruct (construct_f_fp fpow J L N J_min lam s _ false) as [fw|] eqn:Efw; cbn [bind]; [|reflexivity].
  destruct (filters_directional_vectorised_fp fexp fpow flg J L N J_min lam spin spin0) as [[psi phi]|]; cbn [bind]; [|reflexivity].
  destruct (einsum_jln_l_fp _ _); cbn [bind]; [|reflexivity].
  destruct (fwd64 O f L spin s nside reality); cbn [bind]; [|reflexivity].
  match goal with |- bind (for_ ?is ?st ?b1) _ = bind (bind (for_ _ _ ?b2) _) _ =>
    assert (Hs : for_ is (lmn, fw) b1 = (st' <- for_ is (lmn, fw) b2 ;; Ok (fst st', map (nd_abs64 fhyp) (snd st')))) end.
  { rewrite <- (construct_f64_abs fhyp _ _ _ _ _ _ _ _ _ _ H0 Efw) at 1.
    refine (for_sim (fun st : list (arr3 c64) * list nd64 => (fst st, map (nd_abs64 fhyp) (snd st))) _ (lmn, fw) _ _ _).
    intros j [l w]. cbn [fst snd].
    destruct (LN_j_fp _ _ _ _ _ _) as [[[Lj Nj] L0j]|]; cbn [bind]; [|reflexivity].
    destruct (lrd l _); cbn [bind]; [|reflexivity]. destruct (islice3 _ _ _ _); cbn [bind]; [|reflexivity].
    destruct (einsum_lm_ln_nlm_fp _ _); cbn [bind]; [|reflexivity]. destruct (upd3 _ _ _ _ _ _); cbn [bind]; [|reflexivity].
    destruct (lwr l _ _); cbn [bind]; [|reflexivity]. destruct (winv64 _ _ _ _ _ _ _ _) as [y|]; cbn [bind]; [|reflexivity].
    unfold lwr, lrd. rewrite map_length. destruct (idx (Z.of_nat (length w)) _) as [k|] eqn:Ek; cbn [bind]; [|reflexivity].
    rewrite lset_len, map_length, Ek. cbn [bind]. rewrite nth_error_lset by (rewrite map_length; apply idx_range in Ek; lia).
    rewrite Nat.eqb_refl. cbn [bind fst snd]. now rewrite lset_lset, lset_map. }
  rewrite Hs. rewrite !bind_assoc. apply bind_ext. intros [l w] _. cbn [bind fst snd].
  rewrite bind_assoc. apply bind_ext. intros p _. rewrite bind_assoc. apply bind_ext. intros q _.
  rewrite bind_assoc. apply bind_ext. intros sc _. reflexivity.
Qed.

(*% u is the pixel in exact arithmetic, or any other number near the computed one *)
(*@ C81_pixels *)
Lemma scat_pix : forall fhyp f ix u e,
  accurate_hypot fhyp -> finite64 (ndat64 f ix) -> (Cmod (cval (ndat64 f ix)) <= bpow radix2 1000)%R ->
  (Cmod (cval (ndat64 f ix) - u)%C <= e)%R ->
  nshape64 (nd_abs64 fhyp f) = nshape64 f /\
  finite64 (ndat64 (nd_abs64 fhyp f) ix) /\
  snd (cval (ndat64 (nd_abs64 fhyp f) ix)) = 0%R /\ (0 <= fst (cval (ndat64 (nd_abs64 fhyp f) ix)))%R /\
  (Rabs (fst (cval (ndat64 (nd_abs64 fhyp f) ix)) - Cmod u) <= e + bpow radix2 (-52) * (Cmod u + e) + bpow radix2 (-1074))%R.
Proof.
  intros fhyp f ix u e [_ H] [F1 F2] HB He. destruct (H (ndat64 f ix) F1 F2 HB) as (G1 & G2 & G3).
  split; [reflexivity|]. unfold nd_abs64, finite64, cval in *. cbn [ndat64 creal fst snd] in *.
  split; [split; [exact G1|reflexivity]|]. split; [reflexivity|]. split; [exact G2|].
  set (z := (B2R (fst (ndat64 f ix)), B2R (snd (ndat64 f ix)))) in *.
  assert (T1 : (Cmod z <= Cmod u + Cmod (z - u)%C)%R).
  { replace z with (u + (z - u))%C at 1 by ring. apply Cmod_triangle. }
  assert (T2 : (Cmod u <= Cmod z + Cmod (z - u)%C)%R).
  { replace u with (z + - (z - u))%C at 1 by ring. eapply Rle_trans; [apply Cmod_triangle|]. rewrite Cmod_opp. lra. }
  assert (B0 : (0 < bpow radix2 (-52))%R) by apply bpow_gt_0.
  assert (T3 : (bpow radix2 (-52) * Cmod z <= bpow radix2 (-52) * (Cmod u + e))%R) by (apply Rmult_le_compat_l; lra).
  apply Rabs_le_inv in G3. apply Rabs_le. lra.
Qed.

(** a modulus meeting the hypotheses: the exact one, rounded *)
Definition of_real (v : R) : f64 :=
  binary_normalize 53 1024 gt53 lt53 mode_NE (Ztrunc (scaled_mantissa radix2 (SpecFloat.fexp 53 1024) v)) (cexp radix2 (SpecFloat.fexp 53 1024) v) false.
Definition near_hyp (x y : f64) : f64 := of_real (rnd (Cmod (B2R x, B2R y))).
Lemma near_hypot : accurate_hypot near_hyp.
Proof.
  split.
  - unfold near_hyp, of_real. replace (Cmod (B2R (fint 0), B2R (fint 0))) with 0%R.
    + rewrite rnd_0, scaled_mantissa_0. replace (Ztrunc 0) with 0 by (symmetry; apply (Ztrunc_IZR 0)). reflexivity.
    + rewrite fint_B2R by lia. symmetry. apply Cmod_0.
  - intros z _ _ HB. unfold near_hyp. fold (cval z). set (c := Cmod (cval z)) in *. assert (C0 : (0 <= c)%R) by apply Cmod_ge_0.
    unfold of_real. set (v := rnd c).
    assert (GV : generic_format radix2 (SpecFloat.fexp 53 1024) v) by (unfold v; apply generic_format_round; [apply (fexp_correct 53 1024); reflexivity|typeclasses eauto]).
    assert (V0 : (0 <= v)%R) by (now apply rnd_pos).
    assert (VB : (v <= bpow radix2 1000)%R) by (apply rnd_le_f; [apply generic_format_bpow; vm_compute; discriminate|exact HB]).
    pose proof (binary_normalize_correct 53 1024 gt53 lt53 mode_NE (Ztrunc (scaled_mantissa radix2 (SpecFloat.fexp 53 1024) v)) (cexp radix2 (SpecFloat.fexp 53 1024) v) false) as H.
    cbv zeta in H. rewrite <- GV in H. rewrite (round_generic _ _ _ v GV) in H.
    rewrite Rlt_bool_true in H by (rewrite Rabs_pos_eq by exact V0; eapply Rle_lt_trans; [exact VB|apply bpow_lt; lia]).
    destruct H as (HV & HF & _). rewrite HV. split; [exact HF|]. split; [exact V0|].
    unfold v. pose proof (rnd_err c) as E. rewrite (Rabs_pos_eq c C0) in E. eapply Rle_trans; [exact E|].
    assert (E1 : (eps <= bpow radix2 (-52))%R) by (unfold eps; change (bpow radix2 (-52)) with (/ 4503599627370496)%R; lra).
    assert (E2 : (eta <= bpow radix2 (-1074))%R) by (unfold eta; apply bpow_le; lia).
    apply Rplus_le_compat; [|exact E2]. now apply Rmult_le_compat_r.
Qed.

(*% L = 5, N = 3, spin 1, scales 1 to 3: a library meets the hypotheses; on a separate map, a pixel equal to -1 has modulus 1 up to rounding *)
(*@E C81_example *)
Lemma ex_c81 : exists fexp fpow flg fhyp O f w sc g,
  accurate_hypot fhyp /\
  analysis_fp fexp fpow flg O 3 f 5 3 1 (fint 2) 1 0 MW None false true = Ok (w, sc) /\
  analysis_flag_fp fexp fpow flg fhyp O 3 f 5 3 1 (fint 2) 1 0 MW None false true true = Ok (map (nd_abs64 fhyp) w, sc) /\
  analysis_flag_fp fexp fpow flg fhyp O 3 f 5 3 1 (fint 2) 1 0 MW None false true false = Ok (w, sc) /\
  finite64 (ndat64 g [2; 5]%Z) /\ (Cmod (cval (ndat64 g [2; 5]%Z) - RtoC (-1))%C <= 0)%R /\
  (Rabs (fst (cval (ndat64 (nd_abs64 fhyp g) [2; 5]%Z)) - 1) <= / 1000)%R.
Proof.
  destruct ex_c70 as (fexp & fpow & flg & _ & O & _ & f & w & sc & _ & _ & _ & _ & _ & _ & _ & _ & _ & _ & _ & EA & _).
  exists fexp, fpow, flg, near_hyp, O, f, w, sc, (Nd64 [5; 9] (fun _ => creal (fint (-1)))).
  split; [apply near_hypot|]. split; [exact EA|]. split; [rewrite scat_on by apply near_hypot; now rewrite EA|].
  split; [rewrite scat_off; exact EA|].
  assert (V : cval (creal (fint (-1))) = RtoC (-1)) by (unfold cval, creal, RtoC; cbn [fst snd]; rewrite !fint_B2R by lia; reflexivity).
  assert (FF : finite64 (creal (fint (-1)))) by (split; reflexivity).
  assert (M : Cmod (RtoC (-1)) = 1%R) by (rewrite Cmod_R, Rabs_left; lra).
  assert (D : (Cmod (cval (creal (fint (-1))) - RtoC (-1))%C <= 0)%R).
  { rewrite V. replace (RtoC (-1) - RtoC (-1))%C with (RtoC 0) by ring. rewrite Cmod_0. lra. }
  split; [exact FF|]. split; [exact D|].
  assert (HB : (Cmod (cval (creal (fint (-1)))) <= bpow radix2 1000)%R) by (rewrite V, M; change 1%R with (bpow radix2 0); apply bpow_le; lia).
  destruct (scat_pix near_hyp (Nd64 [5; 9] (fun _ => creal (fint (-1)))) [2; 5] (RtoC (-1)) 0 near_hypot FF HB D) as (_ & _ & _ & _ & K).
  rewrite M in K. eapply Rle_trans; [exact K|].
  assert (T : (bpow radix2 (-1074) <= bpow radix2 (-52))%R) by (apply bpow_le; lia).
  change (bpow radix2 (-52)) with (/ 4503599627370496)%R in *. lra.
Qed.
