(** Statements and proofs for PropertiesFloatThreeLoop.v *)

From Coq Require Import ZArith Reals List Bool Lia Lra.
From Coquelicot Require Import Complex.
From Flocq Require Import Core Relative IEEE754.BinarySingleNaN.
From Verif Require Import Py PyFacts ModelSamples SamplesFacts ModelFilters Spec SpecTransforms FiltersFacts DirectionFacts DirFilterFacts TransformsFacts BackendFacts RoundFacts.
From Verif Require Import ModelFloat ModelFloatDir ModelFloatTrans ModelFloatLoop SpecFp SpecFpDir SpecFpMany SpecThree FloatProps FloatFacts FloatFilterProps FloatDefault FloatAccProps
  FloatDirFacts FloatDirProps FloatDirFilterProps FloatManyProps FloatTransFacts FloatTransProps FloatLoopFacts FloatThreeProps FloatThreeTransProps.
Import ListNotations.
Open Scope Z_scope.

(*T The looped transforms with dilation 3 in binary64 *)
(*! From Coq Require Import ZArith Reals List Bool. *)
(*! From Flocq Require Import Core IEEE754.BinarySingleNaN. *)
(*! From Verif Require Import Py ModelSamples ModelFilters ModelFloat ModelFloatDir ModelFloatTrans ModelFloatLoop Spec SpecTransforms SpecFp SpecFpDir SpecFpMany SpecThree. *)

(** ** the component does not vanish *)
Lemma mask3 N n : 1 <= N -> Z.abs n < N -> (n - N) mod 2 = 1 -> dmask N n = true.
Proof.
  intros HN Hn Hp. unfold dmask. destruct (Z.ltb_spec (Z.abs n) N); [|lia]. cbn [andb]. apply negb_true_iff, Z.eqb_neq. Z.div_mod_to_equations. lia.
Qed.
Lemma component_nz flg fexp L N l m : accurate_loggamma_to 1023 flg -> relative_exp_to (7093 / 10) fexp -> 1 <= N -> float_powers L N -> 1 <= l < L ->
  Z.abs m <= l -> dmask N m = true -> czero (sdf flg fexp N l m) = false.
Proof.
  intros Hg He HN HF Hl Hm D. destruct (sdf_val_many flg fexp Hg He N l m HN (gam_1023 L N l HF ltac:(lia))) as (v & V & E).
  destruct (sdf_fin_many flg fexp Hg He N l m HN (gam_1023 L N l HF ltac:(lia))) as [F1 F2].
  destruct (czero (sdf flg fexp N l m)) eqn:Z0; [exfalso|reflexivity].
  unfold czero in Z0. apply andb_true_iff in Z0 as [Z1 Z2]. apply feq0 in Z1; [|exact F1]. apply feq0 in Z2; [|exact F2].
  assert (P : (0 < Cmod (sd N l m))%R).
  { unfold sd. rewrite D. destruct (Z.leb_spec 1 l); [|lia]. destruct (Z.leb_spec (Z.abs m) l); [|lia]. cbn [andb].
    rewrite Cmod_nur. destruct (gam_mask N l m HN ltac:(lia) Hm D) as (Hgm & k & Hk & Hkr).
    assert (T : (1 <= INR (pascal_tri (Z.to_nat (gam N l)) (Z.to_nat k)))%R) by (replace 1%R with (INR 1) by reflexivity; apply le_INR, tri_pos; lia).
    assert (Q : (0 < dsq N l m)%R).
    { unfold dsq. replace ((gam N l - m) / 2) with k by (rewrite Hk, Z.mul_comm, Z.div_mul; lia).
      apply Rmult_lt_0_compat; [lra|]. apply Rinv_0_lt_compat, pow_lt. lra. }
    rewrite Rabs_pos_eq by apply sqrt_pos. now apply sqrt_lt_R0. }
  assert (W : cval (sdf flg fexp N l m) = RtoC 0) by (unfold cval; rewrite Z1, Z2; reflexivity).
  rewrite E in W. apply (f_equal Cmod) in W. rewrite Cmod_nur, Cmod_0 in W.
  assert (V0 : v = 0%R) by (destruct (Req_dec v 0) as [X|X]; [exact X|exfalso; now apply (Rabs_no_R0 v X)]).
  rewrite V0 in V. destruct V as [V1 V2]. pose proof (Rmult_lt_0_compat _ _ P (exp_pos (- ud))). lra.
Qed.

(** ** the filters *)
Lemma loop_dims fexp fpow flg J L N J_min spin psi phi : 1 <= L -> filters_directional_fp fexp fpow flg J L N J_min (fint 3) spin 0 = Ok (psi, phi) ->
  exists kpsi kphi, filters_axisym_fp fexp fpow J L J_min (fint 3) = Ok (kpsi, kphi) /\ float_powers L N /\ 0 <= J_min < J /\
    psi = mk3 (J + 1) L (2 * L - 1) (fun j l q => psif fexp flg N J_min spin 0 kpsi j l (q - (L - 1))) /\ len1 phi = L.
Proof.
  intros HL E. pose proof (dir_fp_fits fexp fpow flg J L N J_min (fint 3) spin 0 (psi, phi) HL (or_introl E)) as HF.
  assert (EA : exists kpsi kphi, filters_axisym_fp fexp fpow J L J_min (fint 3) = Ok (kpsi, kphi)).
  { unfold filters_directional_fp in E. apply bind_inv in E as (? & _ & E). apply bind_inv in E as (? & _ & E).
    apply bind_inv in E as ([kpsi kphi] & EA & _). eauto. }
  destruct EA as (kpsi & kphi & EA). destruct (axisym_fp_inv _ _ _ _ _ _ _ _ EA) as (HJ & Rp & Cp & Lp & _).
  exists kpsi, kphi. split; [exact EA|]. split; [exact HF|]. split; [exact HJ|].
  rewrite (dir_fp_ok fexp fpow flg J L N J_min (fint 3) spin 0 kpsi kphi HL HF ltac:(lia) ltac:(intros H; now destruct H) EA Rp Cp Lp) in E.
  apply Ok_inj in E. split; [symmetry; exact (f_equal fst E)|]. pose proof (f_equal snd E) as E2. cbn [snd] in E2. rewrite <- E2. reflexivity.
Qed.

(*% the looped directional filters are infinite or NaN at degree 794, for every order that carries a direction *)
(*@ C90_looped_filters *)
Lemma fp3_loop_filters : forall fexp fpow flg J L N J_min spin psi phi, 795 <= L <= 2 ^ 53 -> 1 <= N -> 6 <= J <= 32 -> J_min <= 6 -> Z.abs spin <= 794 ->
  accurate_exp fexp -> overflowing_exp fexp -> powers_of_three fpow J -> accurate_loggamma_to 1023 flg -> relative_exp_to (7093 / 10) fexp ->
  filters_directional_fp fexp fpow flg J L N J_min (fint 3) spin 0 = Ok (psi, phi) ->
  forall n, Z.abs n < N -> Z.abs n <= 794 -> (n - N) mod 2 = 1 -> is_finite (fst (get3 psi 6 794 (L - 1 + n))) = false.
Proof.
  intros fexp fpow flg J L N J_min spin psi phi HL HN HJ HJm Hs HE HO HP Hg Hr E n Hn Hn' Hp.
  destruct (loop_dims fexp fpow flg J L N J_min spin psi phi ltac:(lia) E) as (kpsi & kphi & EA & HF & HJ2 & -> & _).
  rewrite get3_mk by lia. replace (L - 1 + n - (L - 1)) with n by lia. unfold psif, el_min.
  rewrite (proj1 (fp3_infinite fexp fpow J L J_min kpsi kphi HL ltac:(lia) HE HO HP (or_introl EA) ltac:(lia)) HJm).
  rewrite (component_nz flg fexp L N 794 n Hg Hr HN HF ltac:(lia) Hn' (mask3 N n HN Hn Hp)).
  destruct (Z.leb_spec J_min 6); [|lia]. destruct (Z.leb_spec (Z.max (Z.abs spin) (Z.abs 0)) 794); [|lia]. destruct (Z.leb_spec (Z.abs n) 794); [|lia].
  change (feq finf (fint 0)) with false. cbn [andb negb]. change (0 =? 0) with true. cbv iota zeta.
  replace (fmul (wav_weight_fp 794) finf) with finf by (vm_compute; reflexivity). apply inf_cmul.
Qed.

(*% analysis with loops *)
(*@ C90_looped_analysis *)
Lemma fp3_loop_analysis : forall fexp fpow flg O J f L N J_min spin s nside reality mr f_wav f_scal,
  795 <= L <= 2 ^ 50 -> 1 <= N <= L -> j_max L 3 = Ok J -> J_min <= 6 -> Z.abs spin <= 794 ->
  accurate_exp fexp -> overflowing_exp fexp -> powers_of_three fpow J -> accurate_loggamma_to 1023 flg -> relative_exp_to (7093 / 10) fexp ->
  documented_shapes O -> sampling_known s nside ->
  analysis_looped_fp fexp fpow flg O J f L N J_min (fint 3) spin 0 s nside reality mr = Ok (f_wav, f_scal) ->
  exists flmn Lj Nj L0j y, LN_j L 6 N 3 mr = Ok (Lj, Nj, L0j) /\ lrd f_wav (6 - J_min) = Ok y /\
    winv64 O flmn Lj Nj L0j s reality nside = Ok y /\
    forall n m, Z.abs n < Nj -> Z.abs n <= 794 -> (n - N) mod 2 = 1 -> Z.abs m <= 794 -> is_finite (fst (get3 flmn (Nj - 1 + n) 794 (Lj - 1 + m))) = false.
Proof.
  intros fexp fpow flg O J f L N J_min spin s nside reality mr f_wav f_scal HL HN EJ HJm Hs HE HO HP Hg Hr [HS1 HS2] Hsm E.
  pose proof (J3 L J HL EJ) as HJ. assert (HL' : 795 <= L <= 2 ^ 53) by (change (2 ^ 50) with 1125899906842624 in HL; lia).
  assert (EF : exists psi phi, filters_directional_fp fexp fpow flg J L N J_min (fint 3) spin 0 = Ok (psi, phi)).
  { unfold analysis_looped_fp in E. do 3 (apply bind_inv in E as (? & _ & E)). apply bind_inv in E as ([psi phi] & EF & _). eauto. }
  destruct EF as (psi & phi & EF). destruct (loop_dims fexp fpow flg J L N J_min spin psi phi ltac:(lia) EF) as (kpsi & kphi & EA & HF & HJ2 & Epsi & D3).
  pose proof (fp3_loop_filters fexp fpow flg J L N J_min spin psi phi HL' ltac:(lia) ltac:(lia) HJm Hs HE HO HP Hg Hr EF) as HI.
  assert (D0 : dim0 psi = J + 1) by (rewrite Epsi; reflexivity). assert (D1 : dim1 psi = L) by (rewrite Epsi; reflexivity). assert (D2 : dim2 psi = 2 * L - 1) by (rewrite Epsi; reflexivity).
  clear Epsi. pose proof (szs3 fpow L N J mr ltac:(lia) ltac:(lia) HP) as SZ.
  rewrite (analysis_looped64_ok fexp fpow flg L N J_min J (fint 3) mr (fun j => Lj_of L j 3 mr) (fun j => Nj_of L j N 3 mr) (fun j => L0_of j 3 mr) (Ls_of L J_min 3 mr)) with (psi := psi) (phi := phi) in E; auto; try lia.
  - apply bind_inv in E as (flm & Ef & E). apply bind_inv in E as (w & Ew & E). apply bind_inv in E as (sc & _ & E).
    apply Ok_inj in E. injection E as <- <-. apply mapM_inv in Ew as [Lw Ew]. rewrite zrange_length in Lw.
    destruct (Ew (Z.to_nat (6 - J_min)) 6) as (y & Ey & Ny).
    { rewrite nth_error_zrange by lia. f_equal. lia. }
    eexists _, (Lj_of L 6 3 mr), (Nj_of L 6 N 3 mr), (L0_of 6 3 mr), y.
    split; [apply LN_j_ok; lra|]. split; [apply lrd_nth; [lia|exact Ny]|]. split; [exact Ey|].
    intros n m Hn Hn' Hp Hm. destruct (six L mr ltac:(lia)) as [H0 HLj].
    destruct (sz_facts L N J 3 mr ltac:(lia) ltac:(lia) ltac:(lra) EJ 6 ltac:(lia)) as (Z1 & Z2 & Z3 & Z4).
    unfold wloop64. rewrite get3_mk by lia. cbv zeta.
    replace (Nj_of L 6 N 3 mr - 1 + n - (Nj_of L 6 N 3 mr - 1)) with n by lia. replace (Lj_of L 6 3 mr - 1 + m - (Lj_of L 6 3 mr - 1)) with m by lia.
    rewrite (par3 L N mr n ltac:(lia) ltac:(lia) Hp).
    destruct (Z.leb_spec (Z.max (Z.max (Z.abs spin) (Z.abs n)) (L0_of 6 3 mr)) 794); [|lia]. destruct (Z.leb_spec (Z.abs m) 794); [|lia]. cbn [andb].
    assert (W : forall n m, Z.abs n < N -> Z.abs n <= 794 -> (n - N) mod 2 = 1 -> is_finite (fst (wval64 L psi flm 6 n 794 m)) = false).
    { intros n0 m0 A B C. unfold wval64. apply nf_cmul_r, nf_cmul_l. cbn [fst cconj64]. now apply HI. }
    unfold wvalr64. destruct (reality && (m <? 0)).
    + apply nf_cmul_r. cbn [fst cconj64]. apply W; [lia|lia|]. Z.div_mod_to_equations. lia.
    + apply W; [lia|lia|exact Hp].
  - intros j Hj. apply SZ. lia.
  - intros j Hj. destruct (sz_facts L N J 3 mr ltac:(lia) ltac:(lia) ltac:(lra) EJ j ltac:(lia)) as (Z1 & Z2 & Z3 & Z4). lia.
  - apply SZ. lia.
  - apply (Ls_range L J_min 3 mr); [lia|lra].
  - intros a Ea. apply (HS1 f L spin s nside reality a); [lia|exact Ea].
Qed.

(*% synthesis with loops *)
(*@ C90_looped_synthesis *)
Lemma fp3_loop_synthesis : forall fexp fpow flg O J f_wav f_scal L N J_min spin s nside reality mr g,
  795 <= L <= 2 ^ 50 -> 1 <= N <= L -> j_max L 3 = Ok J -> J_min <= 6 -> Z.abs spin <= 794 ->
  accurate_exp fexp -> overflowing_exp fexp -> powers_of_three fpow J -> accurate_loggamma_to 1023 flg -> relative_exp_to (7093 / 10) fexp ->
  documented_shapes O ->
  synthesis_looped_fp fexp fpow flg O J f_wav f_scal L N J_min (fint 3) spin 0 s nside reality mr = Ok g ->
  exists flm, inv64 O flm L spin s nside reality = Ok g /\ rows flm = L /\ cols flm = 2 * L - 1 /\
    forall m, Z.abs m <= 794 -> is_finite (fst (get2 flm 794 (L - 1 + m))) = false.
Proof.
  intros fexp fpow flg O J f_wav f_scal L N J_min spin s nside reality mr g HL HN EJ HJm Hs HE HO HP Hg Hr [HS1 HS2] E.
  pose proof (J3 L J HL EJ) as HJ. assert (HL' : 795 <= L <= 2 ^ 53) by (change (2 ^ 50) with 1125899906842624 in HL; lia).
  assert (EF : exists psi phi, filters_directional_fp fexp fpow flg J L N J_min (fint 3) spin 0 = Ok (psi, phi)).
  { unfold synthesis_looped_fp in E. do 4 (apply bind_inv in E as (? & _ & E)). apply bind_inv in E as ([psi phi] & EF & _). eauto. }
  destruct EF as (psi & phi & EF). destruct (loop_dims fexp fpow flg J L N J_min spin psi phi ltac:(lia) EF) as (kpsi & kphi & EA & HF & HJ2 & Epsi & D3).
  pose proof (fp3_loop_filters fexp fpow flg J L N J_min spin psi phi HL' ltac:(lia) ltac:(lia) HJm Hs HE HO HP Hg Hr EF) as HI.
  assert (D0 : dim0 psi = J + 1) by (rewrite Epsi; reflexivity). assert (D1 : dim1 psi = L) by (rewrite Epsi; reflexivity). assert (D2 : dim2 psi = 2 * L - 1) by (rewrite Epsi; reflexivity).
  clear Epsi. pose proof (szs3 fpow L N J mr ltac:(lia) ltac:(lia) HP) as SZ.
  rewrite (synthesis_looped64_ok fexp fpow flg L N J_min J (fint 3) mr (fun j => Lj_of L j 3 mr) (fun j => Nj_of L j N 3 mr) (fun j => L0_of j 3 mr) (Ls_of L J_min 3 mr)) with (psi := psi) (phi := phi) in E; auto; try lia.
  - apply bind_inv in E as (? & _ & E). apply bind_inv in E as (S & _ & E). apply bind_inv in E as (Ts & _ & E).
    eexists. split; [exact E|]. split; [reflexivity|]. split; [reflexivity|]. intros m Hm. unfold synl64. rewrite get2_mk by lia.
    replace (L - 1 + m - (L - 1)) with m by lia. destruct (six L mr ltac:(lia)) as [H0 HLj].
    destruct (sz_facts L N J 3 mr ltac:(lia) ltac:(lia) ltac:(lra) EJ 6 ltac:(lia)) as (Z1 & Z2 & Z3 & Z4).
    assert (P : forall js a, is_finite (fst a) = false \/ In 6 js -> is_finite (fst (fold_left (fun a j =>
      lstep64 L spin psi j (Lj_of L j 3 mr) (Nj_of L j N 3 mr) (L0_of j 3 mr) (Tnth nd30 J_min Ts j) 794 m a) js a)) = false).
    { induction js as [|j js IH]; intros a Ha; [destruct Ha as [Ha|[]]; exact Ha|]. cbn [fold_left]. apply IH.
      assert (K : forall is b (g : Z -> c64) (c : Z -> bool), is_finite (fst b) = false \/ (exists i, In i is /\ c i = true /\ is_finite (fst (g i)) = false) ->
        is_finite (fst (fold_left (fun a i => if c i then cadd a (g i) else a) is b)) = false).
      { clear. intros is. induction is as [|i is IHi]; intros b g c H; cbn [fold_left]; [destruct H as [H|(i & [] & _)]; exact H|]. apply IHi.
        destruct H as [H|(i' & [<- |Hi] & Hc & Hf)]; [left|left|right; eauto].
        - destruct (c i); [apply nf_cadd_l|]; exact H.
        - rewrite Hc. now apply nf_cadd_r. }
      destruct Ha as [Ha|[->|Ha]]; [left|left|right; exact Ha]; unfold lstep64.
      - destruct (_ && _); [|exact Ha]. apply (K _ _ (fun i => cmul _ _) (fun i => _)). left. exact Ha.
      - destruct (Z.leb_spec (Z.abs m) 794); [|lia]. destruct (Z.ltb_spec 794 (Lj_of L 6 3 mr)); [|lia]. cbn [andb].
        apply (K _ _ (fun i => cmul _ _) (fun i => _)). right. exists (Nj_of L 6 N 3 mr / 2).
        set (n := - Nj_of L 6 N 3 mr + 1 + Nj_of L 6 N 3 mr / 2 * 2).
        destruct (Nj_facts L 6 N 3 mr ltac:(lia) ltac:(lra) ltac:(lia)) as (_ & _ & _ & Pj). cbv zeta in Pj.
        assert (Hn : 0 <= n <= 1 /\ n < N /\ (n - N) mod 2 = 1) by (unfold n; Z.div_mod_to_equations; lia).
        split; [apply In_zrange; Z.div_mod_to_equations; lia|]. split; [apply Z.leb_le; fold n; lia|].
        apply nf_cmul_r. fold n. apply HI; lia. }
    assert (I6 : In 6 (zrange J_min (J + 1))) by (apply In_zrange; lia).
    assert (Q := P (zrange J_min (J + 1)) (creal (fint 0)) (or_intror I6)).
    unfold sy_fin64. destruct (_ && _); [|exact Q]. destruct (reality && _); apply nf_cadd_l; exact Q.
  - intros j Hj. apply SZ. lia.
  - intros j Hj. destruct (sz_facts L N J 3 mr ltac:(lia) ltac:(lia) ltac:(lra) EJ j ltac:(lia)) as (Z1 & Z2 & Z3 & Z4). lia.
  - apply SZ. lia.
  - apply (Ls_range L J_min 3 mr); [lia|lra].
  - intros S ES. apply (HS1 f_scal (Ls_of L J_min 3 mr) spin s nside reality S); [|exact ES]. apply (Ls_range L J_min 3 mr); [lia|lra].
  - intros j fj T Hj _ ET. destruct (sz_facts L N J 3 mr ltac:(lia) ltac:(lia) ltac:(lra) EJ j ltac:(lia)) as (Z1 & Z2 & Z3 & Z4).
    apply (HS2 fj _ _ _ s nside reality T) in ET; [exact ET|lia|lia].
Qed.

Definition bexp (x : f64) : f64 := if flt (fint 710) x then finf else near_exp x.
Lemma bexp_ok : accurate_exp bexp /\ overflowing_exp bexp /\ relative_exp_to (7093 / 10) bexp.
Proof.
  split; [|split].
  - intros x F Hx. unfold bexp. rewrite flt_false; [now apply near_accurate|reflexivity|exact F|]. rewrite (fint_B2R 710) by lia. lra.
  - intros x H. unfold bexp. now rewrite H.
  - intros x F Hx. unfold bexp. rewrite flt_false; [now apply near_relative_many|reflexivity|exact F|]. rewrite (fint_B2R 710) by lia. lra.
Qed.

(*% L = 1000 (J = 7), N = 3, J_min = 6, full resolution, vanishing coefficients, and a library storing harmonic coefficients as they are *)
(*@E C90_looped_example *)
Lemma ex_c90_loop : exists fexp fpow flg O f_wav f_scal g, accurate_exp fexp /\ overflowing_exp fexp /\ powers_of_three fpow 7 /\
  accurate_loggamma_to 1023 flg /\ relative_exp_to (7093 / 10) fexp /\ documented_shapes O /\ j_max 1000 3 = Ok 7 /\
  synthesis_looped_fp fexp fpow flg O 7 f_wav f_scal 1000 3 6 (fint 3) 0 0 MW None false false = Ok g /\
  is_finite (fst (ndat64 g [794; 999])) = false.
Proof.
  destruct bexp_ok as (H1 & H2 & H4). pose proof (pow3_ok 7) as H3. pose proof near_loggamma_many as H5.
  set (z := fun sh : list Z => Nd64 sh (fun _ => creal (fint 0))).
  set (fw := [z [5; 1000; 1999]; z [5; 1000; 1999]]). set (fs := z [1000; 1999]).
  destruct (fp3_filters_total bexp pow3 7 1000 6 ltac:(lia) ltac:(lia) ltac:(lia) H3) as ((kpsi & kphi & EA) & _).
  destruct (axisym_fp_inv _ _ _ _ _ _ _ _ EA) as (_ & Rp & Cp & Lp & _).
  assert (HF : float_powers 1000 3) by (left; lia).
  pose proof (dir_fp_ok bexp pow3 near_lg 7 1000 3 6 (fint 3) 0 0 kpsi kphi ltac:(lia) HF ltac:(lia) ltac:(intros H; now destruct H) EA Rp Cp Lp) as EF.
  match type of EF with _ = Ok (?p, ?f) => set (psi := p) in EF; set (phi := f) in EF end.
  assert (G : exists g, synthesis_looped_fp bexp pow3 near_lg store 7 fw fs 1000 3 6 (fint 3) 0 0 MW None false false = Ok g).
  { rewrite (synthesis_looped64_ok bexp pow3 near_lg 1000 3 6 7 (fint 3) false (fun _ => 1000) (fun _ => 3) (fun _ => 0) 1000) with (psi := psi) (phi := phi);
      try exact EF; try reflexivity; try lia; try (intros; lia).
    - replace (wavelet_shape_check_fp pow3 7 fw fs 1000 3 6 (fint 3) MW None false) with (Ok tt) by reflexivity. cbn [bind fwd64 store].
      change (zrange 6 (7 + 1)) with [6; 7]. eexists. reflexivity.
    - intros S E. apply (proj1 store_shapes) in E; [exact E|lia].
    - intros j fj T Hj _ E. apply (proj2 store_shapes) in E; [exact E|lia|lia]. }
  destruct G as [g G]. exists bexp, pow3, near_lg, store, fw, fs, g.
  split; [exact H1|]. split; [exact H2|]. split; [exact H3|]. split; [exact H5|]. split; [exact H4|]. split; [exact store_shapes|]. split; [exact jm3|]. split; [exact G|].
  destruct (fp3_loop_synthesis bexp pow3 near_lg store 7 fw fs 1000 3 6 0 MW None false false g ltac:(lia) ltac:(lia) jm3 ltac:(lia) ltac:(lia) H1 H2 H3 H5 H4 store_shapes G) as (flm & E & _ & _ & N).
  cbn [inv64 store s2_f_shape ntheta nphi bind] in E. apply Ok_inj in E. rewrite <- E. cbn [ndat64]. exact (N 0 ltac:(lia)).
Qed.
