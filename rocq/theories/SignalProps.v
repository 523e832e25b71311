(** Statements and proofs for PropertiesSignal.v *)

From Coq Require Import ZArith Reals List Bool Lia Lra.
From Coquelicot Require Import Rcomplements Complex.
From Verif Require Import Py PyFacts ModelSamples SamplesFacts ModelFilters ModelTransforms Spec SpecTransforms SpecSteer
  FiltersFacts AxisymFacts DirectionFacts DirFilterFacts FiltersProps TransformsFacts BackendFacts LoopFacts
  ReconFacts RoundFacts Demo TransformsProps FrameProps QuadProps SteerProps SpecSignal SignalFacts.
Import ListNotations.
Open Scope Z_scope.

(*T Properties of the transforms as maps between signals *)
(*! From Coq Require Import ZArith Reals List Bool. *)
(*! From Coquelicot Require Import Complex. *)
(*! From Verif Require Import Py ModelSamples ModelFilters ModelTransforms Spec SpecTransforms SpecSteer SpecSignal Demo. *)

Lemma an_filters b O f L N J_min lam spin spin0 s nside reality mr psi phi w sc :
  analysed b O f L N J_min lam spin spin0 s nside reality mr psi phi w sc -> is_filters L N J_min lam spin spin0 psi phi.
Proof. destruct b; [intros [(E & _)|(E & _)]; [right; left|left]; exact E|intros (E & _); exact E..]. Qed.
Lemma rs_filters b O w sc L N J_min lam spin spin0 s nside reality mr psi phi g :
  resynthesised b O w sc L N J_min lam spin spin0 s nside reality mr psi phi g -> is_filters L N J_min lam spin spin0 psi phi.
Proof. destruct b; [intros [(E & _)|(E & _)]; [right; left|left]; exact E|intros (E & _); exact E..]. Qed.

(*% ** The coefficients of analysed maps can be measured *)
(*% [f] is the band-limited field with coefficients [flm]; [W] and [S] are what the library's
    own forward transforms read from the maps *)

(*@ C54_analysis_is_measurable *)
Lemma an_measurable : forall b O f flm L N lam J_min J spin spin0 s nside reality mr psi phi w sc,
  1 <= L -> 1 <= N <= L -> (1 < lam)%R -> j_max L lam = Ok J -> exact_lib b O L J_min lam spin s nside reality ->
  is_harmonic L spin reality flm -> b_inv (lib_of b O) flm L spin s nside reality = Ok f ->
  analysed b O f L N J_min lam spin spin0 s nside reality mr psi phi w sc ->
  exists W S, measured (lib_of b O) L N J_min J lam spin s nside reality mr w sc W S.
Proof.
  intros b O f flm L N lam J_min J spin spin0 s nside reality mr psi phi w sc HL HN Hl EJ HX Hh Ef A.
  pose proof (filt_J L N J_min J spin spin0 lam psi phi HL ltac:(lia) Hl (an_filters _ _ _ _ _ _ _ _ _ _ _ _ _ _ _ _ _ A) EJ) as HF.
  do 2 eexists. apply (maps_measured L N J_min J spin lam mr HL HN Hl psi phi HF b O s nside reality HX flm w sc Hh).
  eapply analysed_maps; eauto.
Qed.
(*@ C54_synthesis_is_measurable *)
Lemma rs_measurable : forall b O L N lam J_min J spin spin0 s nside reality mr psi phi w sc W S g,
  1 <= L -> 1 <= N <= L -> (1 < lam)%R -> j_max L lam = Ok J -> exact_lib b O L J_min lam spin s nside reality ->
  measured (lib_of b O) L N J_min J lam spin s nside reality mr w sc W S ->
  resynthesised b O w sc L N J_min lam spin spin0 s nside reality mr psi phi g ->
  exists glm, is_harmonic L spin reality glm /\ b_inv (lib_of b O) glm L spin s nside reality = Ok g /\
    b_fwd (lib_of b O) g L spin s nside reality = Ok glm.
Proof.
  intros b O L N lam J_min J spin spin0 s nside reality mr psi phi w sc W S g HL HN Hl EJ HX M R.
  pose proof (filt_J L N J_min J spin spin0 lam psi phi HL ltac:(lia) Hl (rs_filters _ _ _ _ _ _ _ _ _ _ _ _ _ _ _ _ _ R) EJ) as HF.
  pose proof (resyn_inv L N J_min J spin lam mr HL HN Hl psi phi HF b O s nside reality HX spin0 w sc W S g M R) as Ei.
  pose proof (sy_is L N J_min J spin lam mr HL HN Hl psi phi HF reality W S
    (deco_of L N J_min J spin lam mr Hl (lib_of b O) s nside reality w sc W S M)) as Hh.
  eexists. split; [exact Hh|]. split; [exact Ei|]. eapply fwd_of; eauto.
Qed.

(*% ** C54: synthesis is the adjoint of analysis *)

(*@ C54_adjoint *)
Lemma adjoint : forall b O f flm g glm L N lam J_min J spin spin0 s nside reality mr psi phi w sc W S v tc V T,
  1 <= L -> 1 <= N <= L -> (1 < lam)%R -> j_max L lam = Ok J -> exact_lib b O L J_min lam spin s nside reality ->
  is_harmonic L spin reality flm -> b_inv (lib_of b O) flm L spin s nside reality = Ok f ->
  analysed b O f L N J_min lam spin spin0 s nside reality mr psi phi w sc ->
  measured (lib_of b O) L N J_min J lam spin s nside reality mr w sc W S ->
  measured (lib_of b O) L N J_min J lam spin s nside reality mr v tc V T ->
  resynthesised b O v tc L N J_min lam spin spin0 s nside reality mr psi phi g ->
  b_fwd (lib_of b O) g L spin s nside reality = Ok glm ->
  inner J_min J W S V T = inner2 flm glm.
Proof.
  intros b O f flm g glm L N lam J_min J spin spin0 s nside reality mr psi phi w sc W S v tc V T
    HL HN Hl EJ HX Hh Ef A MW MV R Eg.
  pose proof (filt_J L N J_min J spin spin0 lam psi phi HL ltac:(lia) Hl (rs_filters _ _ _ _ _ _ _ _ _ _ _ _ _ _ _ _ _ R) EJ) as HF.
  destruct (analysed_coefs L N J_min J spin lam mr HL HN Hl psi phi HF b O s nside reality HX spin0 f flm w sc W S Hh Ef A MW) as (-> & EW).
  destruct (resyn_coefs L N J_min J spin lam mr HL HN Hl psi phi HF b O s nside reality HX spin0 v tc V T g glm MV R Eg) as (-> & Hg).
  destruct (deco_of L N J_min J spin lam mr Hl (lib_of b O) s nside reality v tc V T MV) as (D1 & D2).
  rewrite <- (adjoint_sy L N J_min J spin lam mr HL HN Hl psi phi HF flm V T (proj1 Hh)).
  unfold inner. f_equal. apply csumZ_ext. intros j Hj. now rewrite EW by lia.
Qed.

(*% ** C31: energy of the maps returned by analysis *)

(*@ C31_analysis_energy *)
Lemma an_energy : forall b O f flm L N lam J_min J spin spin0 s nside reality mr psi phi w sc W S,
  1 <= L -> 1 <= N <= L -> (1 < lam)%R -> j_max L lam = Ok J -> exact_lib b O L J_min lam spin s nside reality ->
  is_harmonic L spin reality flm -> b_inv (lib_of b O) flm L spin s nside reality = Ok f ->
  analysed b O f L N J_min lam spin spin0 s nside reality mr psi phi w sc ->
  measured (lib_of b O) L N J_min J lam spin s nside reality mr w sc W S ->
  total_energy J_min J W S = sumZ 0 L (fun l => (dir_total L psi phi J_min J l *
                       sumZ 0 (2 * L - 1) (fun k => Cmod (get2 flm l k) ^ 2))%R) /\
  ((forall l, Z.abs spin <= l < L -> dir_total L psi phi J_min J l = 1%R) -> total_energy J_min J W S = energy2 flm).
Proof.
  intros b O f flm L N lam J_min J spin spin0 s nside reality mr psi phi w sc W S HL HN Hl EJ HX Hh Ef A M.
  pose proof (an_filters _ _ _ _ _ _ _ _ _ _ _ _ _ _ _ _ _ A) as HI.
  pose proof (filt_J L N J_min J spin spin0 lam psi phi HL ltac:(lia) Hl HI EJ) as HF.
  destruct (analysed_coefs L N J_min J spin lam mr HL HN Hl psi phi HF b O s nside reality HX spin0 f flm w sc W S Hh Ef A M) as (-> & EW).
  assert (E0 : total_energy J_min J W (scaling_coefs L phi flm (Ls_of L J_min lam mr))
    = (sumZ J_min (J + 1) (fun j => energy3 (wcoefs L psi flm (szf L N lam mr) j))
       + energy2 (scaling_coefs L phi flm (Ls_of L J_min lam mr)))%R).
  { unfold total_energy. f_equal. apply sumZ_ext. intros j Hj. now rewrite EW by lia. }
  rewrite E0. split.
  - apply (energy L N lam J_min J spin spin0 mr psi phi flm); auto.
    + intros. apply LN_j_ok. lra.
    + apply scal_bandlimit_ok. lra.
    + apply Hh.
  - intros Ha. apply (parseval L N lam J_min J spin spin0 mr psi phi flm); auto.
    + intros. apply LN_j_ok. lra.
    + apply scal_bandlimit_ok. lra.
    + apply Hh.
Qed.

(*% ** C55: synthesis and analysis project orthogonally onto the coefficients of fields *)

Lemma inner2_energy a : inner2 a a = RtoC (energy2 a).
Proof.
  unfold inner2, energy2. rewrite <- csumZ_RtoC. apply csumZ_ext. intros l Hl. rewrite <- csumZ_RtoC.
  apply csumZ_ext. intros. apply Cmod2_conj.
Qed.
Lemma inner3_energy a : inner3 a a = RtoC (energy3 a).
Proof.
  unfold inner3, energy3. rewrite <- csumZ_RtoC. apply csumZ_ext. intros l Hl. rewrite RtoC_mult. f_equal.
  rewrite <- csumZ_RtoC. apply csumZ_ext. intros n Hn. rewrite <- csumZ_RtoC. apply csumZ_ext. intros. apply Cmod2_conj.
Qed.
Lemma inner_energy J_min J W S : inner J_min J W S W S = RtoC (total_energy J_min J W S).
Proof.
  unfold inner, total_energy. rewrite RtoC_plus, inner2_energy, <- csumZ_RtoC. f_equal. apply csumZ_ext.
  intros. apply inner3_energy.
Qed.
Lemma Cmod2_sub x y : (Cmod (Cplus (Cmult (RtoC 1) x) (Cmult (RtoC (-1)) y)) ^ 2
  = Cmod x ^ 2 - 2 * fst (Cmult (Cconj y) x) + Cmod y ^ 2)%R.
Proof.
  unfold Cmod. rewrite !pow2_sqrt by (apply Rplus_le_le_0_compat; apply pow2_ge_0).
  destruct x as [a b], y as [c d]. simpl. ring.
Qed.
Lemma energy2_sub a b : rows b = rows a -> cols b = cols a ->
  energy2 (sub2 a b) = (energy2 a - 2 * fst (inner2 b a) + energy2 b)%R.
Proof.
  intros E1 E2. unfold inner2, energy2, sub2, lin2. cbn [rows cols get2]. rewrite fst_csumZ, E1, E2.
  unfold Rminus. rewrite <- sumZ_mul, <- sumZ_opp, <- !sumZ_plus. apply sumZ_ext. intros l Hl.
  rewrite fst_csumZ, <- sumZ_mul, <- sumZ_opp, <- !sumZ_plus. apply sumZ_ext. intros k Hk. rewrite Cmod2_sub. ring.
Qed.
Lemma energy3_sub a b : dim0 b = dim0 a -> dim1 b = dim1 a -> dim2 b = dim2 a ->
  energy3 (sub3 a b) = (energy3 a - 2 * fst (inner3 b a) + energy3 b)%R.
Proof.
  intros E0 E1 E2. unfold inner3, energy3, sub3, lin3. cbn [dim0 dim1 dim2 get3]. rewrite fst_csumZ, E0, E1, E2.
  unfold Rminus. rewrite <- sumZ_mul, <- sumZ_opp, <- !sumZ_plus. apply sumZ_ext. intros l Hl.
  replace (fst (Cmult (RtoC ((2 * IZR l + 1) / (8 * PI ^ 2))) (csumZ 0 (dim0 a) (fun n => csumZ 0 (dim2 a) (fun k =>
     Cmult (Cconj (get3 b n l k)) (get3 a n l k))))))
  with ((2 * IZR l + 1) / (8 * PI ^ 2) * fst (csumZ 0 (dim0 a) (fun n => csumZ 0 (dim2 a) (fun k =>
     Cmult (Cconj (get3 b n l k)) (get3 a n l k)))))%R by (simpl; ring).
  set (c := ((2 * IZR l + 1) / (8 * PI ^ 2))%R).
  transitivity (c * (sumZ 0 (dim0 a) (fun n => sumZ 0 (dim2 a) (fun k => Cmod (get3 a n l k) ^ 2)) + - (2 * fst (csumZ 0 (dim0 a) (fun n => csumZ 0 (dim2 a) (fun k =>
     Cmult (Cconj (get3 b n l k)) (get3 a n l k))))) + sumZ 0 (dim0 a) (fun n => sumZ 0 (dim2 a) (fun k => Cmod (get3 b n l k) ^ 2))))%R;
    [f_equal|ring].
  rewrite fst_csumZ, <- sumZ_mul, <- sumZ_opp, <- !sumZ_plus. apply sumZ_ext. intros n Hn.
  rewrite fst_csumZ, <- sumZ_mul, <- sumZ_opp, <- !sumZ_plus. apply sumZ_ext. intros k Hk. rewrite Cmod2_sub. ring.
Qed.
Lemma Cm1 x y : Cminus x y = Cplus x (Cmult (RtoC (-1)) y).
Proof. destruct x, y. apply injective_projections; simpl; ring. Qed.
Lemma inner2_sub a b c : inner2 c (sub2 a b) = Cminus (inner2 c a) (inner2 c b).
Proof.
  unfold inner2, sub2, lin2. cbn [get2]. rewrite Cm1.
  rewrite <- csumZ_mul, <- csumZ_plus. apply csumZ_ext. intros l Hl.
  rewrite <- csumZ_mul, <- csumZ_plus. apply csumZ_ext. intros k Hk. ring.
Qed.
Lemma inner3_sub a b c : inner3 c (sub3 a b) = Cminus (inner3 c a) (inner3 c b).
Proof.
  unfold inner3, sub3, lin3. cbn [get3].
  rewrite Cm1.
  rewrite <- csumZ_mul, <- csumZ_plus. apply csumZ_ext. intros l Hl.
  match goal with |- Cmult ?w _ = Cplus (Cmult ?w ?x) (Cmult ?m (Cmult ?w ?y)) =>
    replace (Cplus (Cmult w x) (Cmult m (Cmult w y))) with (Cmult w (Cplus x (Cmult m y))) by ring end.
  f_equal. rewrite <- csumZ_mul, <- csumZ_plus. apply csumZ_ext. intros n Hn.
  rewrite <- csumZ_mul, <- csumZ_plus. apply csumZ_ext. intros k Hk. ring.
Qed.
Lemma inner_sub J_min J V T W S V' T' :
  inner J_min J V T (fun j => sub3 (W j) (V' j)) (sub2 S T') = Cminus (inner J_min J V T W S) (inner J_min J V T V' T').
Proof.
  unfold inner. rewrite inner2_sub.
  rewrite (csumZ_ext _ _ _ (fun j => Cplus (inner3 (V j) (W j)) (Cmult (RtoC (-1)) (inner3 (V j) (V' j)))))
    by (intros; now rewrite inner3_sub, Cm1).
  rewrite csumZ_plus, csumZ_mul, !Cm1. ring.
Qed.
Lemma sumZ_pos lo hi f : (forall i, lo <= i < hi -> (0 <= f i)%R) -> (0 <= sumZ lo hi f)%R.
Proof.
  intros H. destruct (Z_le_dec lo hi) as [Hle|Hle].
  - pose proof (sumZ_ge lo hi f 0 Hle H). lra.
  - rewrite sumZ_nil by lia. lra.
Qed.
Lemma energy2_pos a : (0 <= energy2 a)%R.
Proof. unfold energy2. apply sumZ_pos. intros. apply sumZ_pos. intros. apply pow2_ge_0. Qed.
Lemma energy3_pos a : (0 <= energy3 a)%R.
Proof.
  unfold energy3. apply sumZ_pos. intros l Hl. destruct (two_l1 l ltac:(lia)) as [_ Hp]. pose proof PI_RGT_0.
  apply Rmult_le_pos; [apply Rdiv_le_0_compat; nra|]. apply sumZ_pos. intros. apply sumZ_pos. intros. apply pow2_ge_0.
Qed.
Lemma total_pos J_min J W S : (0 <= total_energy J_min J W S)%R.
Proof.
  unfold total_energy. apply Rplus_le_le_0_compat; [|apply energy2_pos]. apply sumZ_pos. intros. apply energy3_pos.
Qed.

(*% [g] is synthesised from arbitrary maps (v, tc) and analysed again, giving (w, sc): what is
    lost is orthogonal to the coefficients of every field, so energies add up *)
(*@ C55_orthogonal_projection *)
Lemma projection : forall b O g glm L N lam J_min J spin spin0 s nside reality mr psi phi v tc V T w sc W S,
  1 <= L -> 1 <= N <= L -> (1 < lam)%R -> j_max L lam = Ok J -> exact_lib b O L J_min lam spin s nside reality ->
  (forall l, Z.abs spin <= l < L -> dir_total L psi phi J_min J l = 1%R) ->
  measured (lib_of b O) L N J_min J lam spin s nside reality mr v tc V T ->
  resynthesised b O v tc L N J_min lam spin spin0 s nside reality mr psi phi g ->
  b_fwd (lib_of b O) g L spin s nside reality = Ok glm ->
  analysed b O g L N J_min lam spin spin0 s nside reality mr psi phi w sc ->
  measured (lib_of b O) L N J_min J lam spin s nside reality mr w sc W S ->
  (forall f flm u rc U R, is_harmonic L spin reality flm -> b_inv (lib_of b O) flm L spin s nside reality = Ok f ->
     analysed b O f L N J_min lam spin spin0 s nside reality mr psi phi u rc ->
     measured (lib_of b O) L N J_min J lam spin s nside reality mr u rc U R ->
     inner J_min J U R (fun j => sub3 (V j) (W j)) (sub2 T S) = RtoC 0) /\
  (total_energy J_min J V T
   = energy2 glm + total_energy J_min J (fun j => sub3 (V j) (W j)) (sub2 T S))%R /\
  (energy2 glm <= total_energy J_min J V T)%R /\ total_energy J_min J W S = energy2 glm.
Proof.
  intros b O g glm L N lam J_min J spin spin0 s nside reality mr psi phi v tc V T w sc W S HL HN Hl EJ HX Hadm MV R Eg A MW.
  pose proof (filt_J L N J_min J spin spin0 lam psi phi HL ltac:(lia) Hl (rs_filters _ _ _ _ _ _ _ _ _ _ _ _ _ _ _ _ _ R) EJ) as HF.
  destruct (resyn_coefs L N J_min J spin lam mr HL HN Hl psi phi HF b O s nside reality HX spin0 v tc V T g glm MV R Eg) as (Eglm & Hg).
  pose proof (resyn_inv L N J_min J spin lam mr HL HN Hl psi phi HF b O s nside reality HX spin0 v tc V T g MV R) as Ei.
  rewrite <- Eglm in Ei.
  destruct (analysed_coefs L N J_min J spin lam mr HL HN Hl psi phi HF b O s nside reality HX spin0 g glm w sc W S Hg Ei A MW) as (ES & EW).
  assert (EgW : synthesised L J_min J psi phi (szf L N lam mr) W (Ls_of L J_min lam mr) S = glm).
  { rewrite ES, (sy_ext L N J_min J lam mr psi phi W (wc L N lam mr psi glm)) by exact EW.
    rewrite sy_syn, (recon_f L N J_min J spin lam mr psi phi HL HN Hl HF) by apply Hg. apply (scale_1 L spin); auto. apply Hg. }
  destruct (deco_of L N J_min J spin lam mr Hl (lib_of b O) s nside reality v tc V T MV) as (DT & DV).
  destruct (deco_of L N J_min J spin lam mr Hl (lib_of b O) s nside reality w sc W S MW) as (DS & DW).
  assert (Adj : forall f flm u rc U Q, is_harmonic L spin reality flm -> b_inv (lib_of b O) flm L spin s nside reality = Ok f ->
     analysed b O f L N J_min lam spin spin0 s nside reality mr psi phi u rc ->
     measured (lib_of b O) L N J_min J lam spin s nside reality mr u rc U Q ->
     inner J_min J U Q V T = inner2 flm glm /\ inner J_min J U Q W S = inner2 flm glm).
  { intros f flm u rc U Q Hh Ef Af MU.
    destruct (analysed_coefs L N J_min J spin lam mr HL HN Hl psi phi HF b O s nside reality HX spin0 f flm u rc U Q Hh Ef Af MU) as (-> & EU).
    assert (X : forall V T, inner J_min J U (scaling_coefs L phi flm (Ls_of L J_min lam mr)) V T
      = inner2 flm (synthesised L J_min J psi phi (szf L N lam mr) V (Ls_of L J_min lam mr) T)).
    { intros. rewrite <- (adjoint_sy L N J_min J spin lam mr HL HN Hl psi phi HF flm _ _ (proj1 Hh)).
      unfold inner. f_equal. apply csumZ_ext. intros j Hj. now rewrite EU by lia. }
    rewrite !X, EgW, <- Eglm. auto. }
  destruct (Adj g glm w sc W S Hg Ei A MW) as (A1 & A2).
  rewrite inner2_energy in A1, A2. rewrite inner_energy in A2. apply RtoC_inj in A2.
  assert (Res : (total_energy J_min J (fun j => sub3 (V j) (W j)) (sub2 T S)
     = total_energy J_min J V T - 2 * fst (inner J_min J W S V T) + total_energy J_min J W S)%R).
  { unfold total_energy, inner. cbn [fst Cplus]. rewrite fst_csumZ.
    rewrite energy2_sub.
    2,3: destruct DT as ((T1 & T2 & _) & _), DS as ((S1 & S2 & _) & _); congruence.
    rewrite (sumZ_ext J_min (J + 1) (fun j => energy3 (sub3 (V j) (W j)))
      (fun j => energy3 (V j) + - 2 * fst (inner3 (W j) (V j)) + energy3 (W j))%R).
    - rewrite !sumZ_plus, sumZ_mul. ring.
    - intros j Hj. destruct (DV j ltac:(lia)) as ((V0 & V1 & V2 & _) & _).
      destruct (DW j ltac:(lia)) as ((W0 & W1 & W2 & _) & _). rewrite energy3_sub by congruence. ring. }
  rewrite A1 in Res. cbn [fst RtoC] in Res.
  pose proof (total_pos J_min J (fun j => sub3 (V j) (W j)) (sub2 T S)).
  repeat split; try lra.
  intros f flm u rc U Q Hh Ef Af MU. destruct (Adj f flm u rc U Q Hh Ef Af MU) as (B1 & B2).
  rewrite inner_sub, B1, B2. ring.
Qed.

(*% [C54_every_field] and [C54_every_decomposition] below show that the fields and the maps of C54 and C55 range
    over all coefficients, with every implementation *)
(*@ C54_every_field *)
Lemma every_field : forall b O L N lam J_min J spin s nside reality mr flm,
  1 <= L -> 1 <= N <= L -> (1 < lam)%R -> j_max L lam = Ok J -> 0 <= J_min < J ->
  exact_lib b O L J_min lam spin s nside reality -> usable b O spin s nside reality mr ->
  is_harmonic L spin reality flm ->
  exists f psi phi w sc, b_inv (lib_of b O) flm L spin s nside reality = Ok f /\
    analysed b O f L N J_min lam spin 0 s nside reality mr psi phi w sc.
Proof.
  intros b O L N lam J_min J spin s nside reality mr flm HL HN Hl EJ HJ HX U Hh.
  destruct (valid_range L N lam J J_min spin 0 HL ltac:(lia) Hl EJ HJ) as (_ & _ & _ & _ & (psi & phi & E & _) & _).
  pose proof (filt_J L N J_min J spin 0 lam psi phi HL ltac:(lia) Hl (or_intror (or_introl E)) EJ) as HF.
  destruct (proj1 (proj1 HX) L HL flm Hh) as (f & Ef & _).
  destruct (field_an L N J_min J spin lam mr HL HN Hl psi phi HF b O s nside reality HX f flm Hh Ef U E) as (w & sc & A).
  exists f, psi, phi, w, sc. auto.
Qed.
(*@ C54_every_decomposition *)
Lemma every_deco : forall b O L N lam J_min J spin s nside reality mr W S,
  1 <= L -> 1 <= N <= L -> (1 < lam)%R -> j_max L lam = Ok J -> 0 <= J_min < J ->
  exact_lib b O L J_min lam spin s nside reality -> usable b O spin s nside reality mr ->
  (forall Ls, scal_bandlimit L J_min lam mr = Ok Ls -> is_harmonic Ls spin reality S) ->
  (forall j Lj Nj L0j, J_min <= j <= J -> LN_j L j N lam mr = Ok (Lj, Nj, L0j) -> is_wigner Lj Nj L0j reality (W j)) ->
  exists w sc psi phi g, measured (lib_of b O) L N J_min J lam spin s nside reality mr w sc W S /\
    resynthesised b O w sc L N J_min lam spin 0 s nside reality mr psi phi g.
Proof.
  intros b O L N lam J_min J spin s nside reality mr W S HL HN Hl EJ HJ HX U HS HW.
  destruct (valid_range L N lam J J_min spin 0 HL ltac:(lia) Hl EJ HJ) as (_ & _ & _ & _ & (psi & phi & E & _) & _).
  pose proof (filt_J L N J_min J spin 0 lam psi phi HL ltac:(lia) Hl (or_intror (or_introl E)) EJ) as HF.
  destruct (deco_maps L N J_min J spin lam mr HL HN Hl psi phi HF b O s nside reality HX W S) as (w & sc & M & Esc).
  { split; [apply HS, scal_bandlimit_ok; lra|]. intros j Hj. apply (HW j); auto. apply LN_j_ok. lra. }
  destruct (measured_syn L N J_min J spin lam mr HL HN Hl psi phi HF b O s nside reality HX w sc W S M U Esc E) as (g & Eg).
  exists w, sc, psi, phi, g. auto.
Qed.

(*% ** C60: every backend is the vectorised base transform over its own entry points *)

(*@ C60_analysis *)
Lemma an_is_base : forall b O f flm L N lam J_min J spin s nside reality mr psi phi w sc,
  1 <= L -> 1 <= N <= L -> (1 < lam)%R -> j_max L lam = Ok J ->
  filters_directional_vectorised L N J_min lam spin 0 = Ok (psi, phi) ->
  exact_lib b O L J_min lam spin s nside reality ->
  is_harmonic L spin reality flm -> b_inv (lib_of b O) flm L spin s nside reality = Ok f ->
  analysed b O f L N J_min lam spin 0 s nside reality mr psi phi w sc ->
  analysis (lib_of b O) f L N J_min lam spin 0 s nside reality mr false = Ok (w, sc).
Proof.
  intros b O f flm L N lam J_min J spin s nside reality mr psi phi w sc HL HN Hl EJ E HX Hh Ef A.
  pose proof (filt_J L N J_min J spin 0 lam psi phi HL ltac:(lia) Hl (or_intror (or_introl E)) EJ) as HF.
  destruct (analysed_maps L N J_min J spin lam mr HL HN Hl psi phi HF b O s nside reality HX 0 f flm w sc Hh Ef A) as (Ew & Es).
  assert (Eb : b_fwd (lib_of b O) f L spin s nside reality = Ok flm) by (eapply fwd_of; eauto). filt_facts HF.
  rewrite (analysis_ok L N J_min J lam mr HL HN Hl EJ0 ltac:(lia) (lib_of b O) f spin s nside reality false psi phi); auto; try lia.
  - rewrite Eb. cbn [bind]. rewrite Ew. cbn [bind]. rewrite Es. reflexivity.
  - eapply known_some; eauto. exact (inverts_known _ _ _ _ _ _ _ HL (proj1 (proj1 HX) L HL)).
  - intros flm' E'. rewrite Eb in E'. apply Ok_inj in E'. subst. eapply harm_sh, Hh.
Qed.
(*@ C60_synthesis *)
Lemma sy_is_base : forall b O L N lam J_min J spin s nside reality mr psi phi w sc W S g,
  1 <= L -> 1 <= N <= L -> (1 < lam)%R -> j_max L lam = Ok J ->
  filters_directional_vectorised L N J_min lam spin 0 = Ok (psi, phi) ->
  exact_lib b O L J_min lam spin s nside reality ->
  measured (lib_of b O) L N J_min J lam spin s nside reality mr w sc W S ->
  resynthesised b O w sc L N J_min lam spin 0 s nside reality mr psi phi g ->
  synthesis (lib_of b O) w sc L N J_min lam spin 0 s nside reality mr = Ok g.
Proof.
  intros b O L N lam J_min J spin s nside reality mr psi phi w sc W S g HL HN Hl EJ E HX M R.
  pose proof (filt_J L N J_min J spin 0 lam psi phi HL ltac:(lia) Hl (or_intror (or_introl E)) EJ) as HF.
  pose proof (resyn_inv L N J_min J spin lam mr HL HN Hl psi phi HF b O s nside reality HX 0 w sc W S g M R) as Ei.
  pose proof (base_syn L N J_min J spin lam mr HL HN Hl psi phi HF b O s nside reality HX w sc W S M E) as ->. exact Ei.
Qed.
(*@ C60_exactness *)
Lemma lib_exact : forall O spin s nside reality ix,
  (exact_j O spin s nside reality -> exact_b (lib_of Jax O) spin s nside reality) /\
  (exact_p O s nside reality -> exact_b (lib_of Precompute O) 0 s nside reality) /\
  (exact_t O s nside reality -> exact_b (lib_of Torch O) 0 s nside reality) /\
  (ssht_index s ix -> exact_c O spin s ix reality -> exact_b (lib_of Ssht O) spin s None reality).
Proof.
  intros O spin s nside reality ix.
  assert (Hw : forall L N L0 a, 0 <= L0 -> is_wigner L N L0 reality a -> is_wigner L N 0 reality a).
  { intros L N L0 a H ((A0 & A1 & A2 & A3) & A4). split; [|exact A4]. split; [exact A0|]. split; [exact A1|]. split; [exact A2|].
    intros n l m Hne. specialize (A3 n l m Hne). lia. }
  split; [intros H; exact H|]. split; [|split].
  - intros (X1 & X2). split; [exact X1|]. intros L N L0 HL HN H0 a Ha. apply (X2 L N HL HN a). eapply Hw; [|exact Ha]. lia.
  - intros (X1 & X2). split; [exact X1|]. intros L N L0 HL HN H0 a Ha. apply (X2 L N HL HN a). eapply Hw; [|exact Ha]. lia.
  - intros Hix (X1 & X2). split; [|exact X2]. unfold ssht_index in Hix.
    destruct Hix as [[-> ->]|[[-> ->]|[[-> ->]|[-> ->]]]]; exact X1.
Qed.

Lemma demo_lib b L J_min lam reality : exact_lib b demo L J_min lam 0 MW None reality.
Proof.
  destruct (lib_exact demo 0 MW None reality 0) as (X1 & X2 & X3 & X4). split.
  - destruct b.
    + apply demo_exact_b. now left.
    + apply X1, demo_exact_j. now left.
    + apply X2, demo_exact_p. now left.
    + apply X3, demo_exact_t. now left.
    + apply X4; [now left|]. apply demo_exact_c. now left.
  - intros _ _ a Ha. pose proof (demo_one_inverse 0 MW reality (or_introl eq_refl) a (proj1 Ha)) as H.
    destruct b; exact H.
Qed.
Lemma demo_usable b reality : usable b demo 0 MW None reality true.
Proof.
  destruct b; cbn; auto. split; [reflexivity|]. split; [reflexivity|]. intros -> L a f (Ha & Hr) E.
  exact (demo_real 0 a L f Ha (Hr eq_refl) E).
Qed.
Lemma demo_field b reality : exists f, b_inv (lib_of b demo) (demo_flm 5) 5 0 MW None reality = Ok f.
Proof. destruct (f5 MW reality (or_introl eq_refl)) as (f & Ef). exists f. destruct b; exact Ef. Qed.

(*% with every implementation: a field of demo coefficients, analysed down to a scaling map of one pixel, the
    coefficients of the maps, and their synthesis *)
(*@E C54_example *)
Lemma ex_c54 : forall b, exists psi phi f w sc W S g, exact_lib b demo 5 0 2 0 MW None true /\
  usable b demo 0 MW None true true /\
  filters_directional_vectorised 5 3 0 2 0 0 = Ok (psi, phi) /\
  (forall l, 0 <= l < 5 -> dir_total 5 psi phi 0 3 l = 1%R) /\
  is_harmonic 5 0 true (demo_flm 5) /\ b_inv (lib_of b demo) (demo_flm 5) 5 0 MW None true = Ok f /\
  (forall l m, 0 <= l < 5 -> Z.abs m <= l -> get2 (demo_flm 5) l (5 - 1 + m) <> RtoC 0) /\
  analysed b demo f 5 3 0 2 0 0 MW None true true psi phi w sc /\
  measured (lib_of b demo) 5 3 0 3 2 0 MW None true true w sc W S /\
  resynthesised b demo w sc 5 3 0 2 0 0 MW None true true psi phi g /\
  b_fwd (lib_of b demo) g 5 0 MW None true = Ok (demo_flm 5) /\ scal_bandlimit 5 0 2 true = Ok 1.
Proof.
  intros b. destruct (v5 3 0 ltac:(lia) ltac:(lia)) as (psi & phi & E & T & _).
  destruct (demo_field b true) as (f & Ef). pose proof (demo_lib b 5 0 2 true) as HX. pose proof (demo_usable b true) as U.
  assert (Hh : is_harmonic 5 0 true (demo_flm 5)) by apply (demo_flm_ok 5 true).
  pose proof (filt_J 5 3 0 3 0 0 2 psi phi ltac:(lia) ltac:(lia) ltac:(lra) (or_intror (or_introl E)) J5) as HF.
  destruct (field_an 5 3 0 3 0 2 true ltac:(lia) ltac:(lia) ltac:(lra) psi phi HF b demo MW None true HX f _ Hh Ef U E) as (w & sc & A).
  pose proof (analysed_maps 5 3 0 3 0 2 true ltac:(lia) ltac:(lia) ltac:(lra) psi phi HF b demo MW None true HX 0 f _ w sc Hh Ef A) as Mp.
  pose proof (maps_measured 5 3 0 3 0 2 true ltac:(lia) ltac:(lia) ltac:(lra) psi phi HF b demo MW None true HX _ w sc Hh Mp) as M.
  destruct (measured_syn 5 3 0 3 0 2 true ltac:(lia) ltac:(lia) ltac:(lra) psi phi HF b demo MW None true HX w sc _ _ M U (proj2 Mp) E) as (g & R).
  destruct (rs_measurable b demo 5 3 2 0 3 0 0 MW None true true psi phi w sc _ _ g ltac:(lia) ltac:(lia) ltac:(lra) J5 HX M R)
    as (glm & Hg & Ei & Eg).
  destruct (resyn_coefs 5 3 0 3 0 2 true ltac:(lia) ltac:(lia) ltac:(lra) psi phi HF b demo MW None true HX 0 w sc _ _ g glm M R Eg) as (Eq & _).
  rewrite sy_syn, (recon_f 5 3 0 3 0 2 true psi phi ltac:(lia) ltac:(lia) ltac:(lra) HF) in Eq by apply Hh.
  rewrite (scale_1 5 0) in Eq by (auto; apply Hh). subst glm.
  do 7 eexists. exists g. do 7 (split; [first [exact HX|exact U|exact E|exact T|exact Hh|exact Ef|intros; now apply demo_flm_ne]|]).
  split; [exact A|]. split; [exact M|]. split; [exact R|]. split; [exact Eg|exact one5].
Qed.

(*% with every implementation: the base transforms over its entry points return the same maps and bring the field back *)
(*@E C60_example *)
Lemma ex_c60 : forall b, exists psi phi f w sc W S g, exact_lib b demo 5 0 2 0 MW None true /\
  filters_directional_vectorised 5 3 0 2 0 0 = Ok (psi, phi) /\
  is_harmonic 5 0 true (demo_flm 5) /\ b_inv (lib_of b demo) (demo_flm 5) 5 0 MW None true = Ok f /\
  analysed b demo f 5 3 0 2 0 0 MW None true true psi phi w sc /\
  measured (lib_of b demo) 5 3 0 3 2 0 MW None true true w sc W S /\
  resynthesised b demo w sc 5 3 0 2 0 0 MW None true true psi phi g /\
  analysis (lib_of b demo) f 5 3 0 2 0 0 MW None true true false = Ok (w, sc) /\
  synthesis (lib_of b demo) w sc 5 3 0 2 0 0 MW None true true = Ok g /\
  b_fwd (lib_of b demo) g 5 0 MW None true = Ok (demo_flm 5).
Proof.
  intros b. destruct (ex_c54 b) as (psi & phi & f & w & sc & W & S & g & HX & _ & E & _ & Hh & Ef & _ & A & M & R & Eg & _).
  exists psi, phi, f, w, sc, W, S, g. do 7 (split; [assumption|]). split; [|split; [|exact Eg]].
  - apply (an_is_base b demo f (demo_flm 5) 5 3 2 0 3 0 MW None true true psi phi); auto using J5; try lia; lra.
  - apply (sy_is_base b demo 5 3 2 0 3 0 MW None true true psi phi w sc W S); auto using J5; try lia; lra.
Qed.

(*% the same calls with the precomputes, or with the sampling MW, succeed *)
(*@E C36_example *)
Lemma ex_c36 : exists psi phi f w sc p f' w' sc' p' f'' w'' sc'',
  filters_directional_vectorised 5 3 0 2 0 0 = Ok (psi, phi) /\
  pre_analysis demo f 5 3 0 2 0 MW None true (Some (psi, phi)) (Some p) = Ok (w, sc) /\
  pre_analysis demo f 5 3 0 2 0 MW None true (Some (psi, phi)) None = Err ValueError /\
  torch_analysis demo f' 5 3 0 2 0 MW None true (Some (psi, phi)) (Some p') = Ok (w', sc') /\
  torch_analysis demo f' 5 3 0 2 0 MW None true (Some (psi, phi)) None = Err ValueError /\
  ssht_analysis demo f'' 5 3 0 2 0 MW true (Some (psi, phi)) = Ok (w'', sc'') /\
  ssht_analysis demo f'' 5 3 0 2 0 HEALPIX true (Some (psi, phi)) = Err ValueError.
Proof.
  destruct (ex_c54 Precompute) as (psi & phi & f & w & sc & _ & _ & _ & _ & _ & E & _ & _ & _ & _ & (_ & _ & _ & p & _ & A) & _).
  destruct (ex_c54 Torch) as (psi1 & phi1 & f1 & w1 & sc1 & _ & _ & _ & _ & _ & E1 & _ & _ & _ & _ & (_ & _ & _ & p1 & _ & A1) & _).
  destruct (ex_c54 Ssht) as (psi2 & phi2 & f2 & w2 & sc2 & _ & _ & _ & _ & _ & E2 & _ & _ & _ & _ & (_ & _ & _ & A2) & _).
  rewrite E in E1, E2. apply Ok_inj in E1, E2. injection E1 as <- <-. injection E2 as <- <-.
  exists psi, phi, f, w, sc, p, f1, (map Some w1), sc1, p1, f2, w2, sc2. auto 10.
Qed.

(*% maps that are not the analysis of any field: the residual is not zero *)
(*@E C55_example *)
Lemma ex_c55 : exists psi phi v tc V T g glm w sc W S, exact_lib Base demo 5 1 2 0 MW None true /\
  (forall l, 0 <= l < 5 -> dir_total 5 psi phi 1 3 l = 1%R) /\
  measured demo 5 3 1 3 2 0 MW None true false v tc V T /\
  resynthesised Base demo v tc 5 3 1 2 0 0 MW None true false psi phi g /\
  b_fwd demo g 5 0 MW None true = Ok glm /\
  analysed Base demo g 5 3 1 2 0 0 MW None true false psi phi w sc /\
  measured demo 5 3 1 3 2 0 MW None true false w sc W S /\
  get2 (sub2 T S) 4 (5 - 1 + 0) <> RtoC 0.
Proof.
  assert (HX0 : exact_b demo 0 MW None true) by (apply demo_exact_b; left; reflexivity).
  pose proof (demo_lib Base 5 1 2 true) as HX.
  destruct (v5 3 1 ltac:(lia) ltac:(lia)) as (psi & phi & E & T0 & _).
  pose proof (filt_J 5 3 1 3 0 0 2 psi phi ltac:(lia) ltac:(lia) ltac:(lra) (or_intror (or_introl E)) J5) as HF.
  pose proof (deco_an 5 3 1 3 0 2 false ltac:(lia) ltac:(lia) ltac:(lra) psi phi HF true (demo_flm 5) (demo_flm_ok 5 true)) as (_ & D2).
  destruct (deco_maps 5 3 1 3 0 2 false ltac:(lia) ltac:(lia) ltac:(lra) psi phi HF Base demo MW None true HX (wc 5 3 2 false psi (demo_flm 5)) (demo_flm 5))
    as (v & tc & MV & Etc).
  { split; [|exact D2]. apply (demo_flm_ok 5 true). }
  destruct (measured_syn 5 3 1 3 0 2 false ltac:(lia) ltac:(lia) ltac:(lra) psi phi HF Base demo MW None true HX v tc _ _ MV I Etc E) as (g & Rg).
  destruct (rs_measurable Base demo 5 3 2 1 3 0 0 MW None true false psi phi v tc _ _ g ltac:(lia) ltac:(lia) ltac:(lra) J5 HX MV Rg)
    as (glm & Hg & Ei & Ef).
  destruct (rt_vec demo g glm 5 3 2 1 3 0 MW None true false psi phi) as (w & sc & A & _); auto using J5; try lia; try lra.
  assert (An : analysed Base demo g 5 3 1 2 0 0 MW None true false psi phi w sc) by (left; auto).
  destruct (an_measurable Base demo g glm 5 3 2 1 3 0 0 MW None true false psi phi w sc) as (W & S & M); auto using J5; try lia; try lra.
  exists psi, phi, v, tc, (wc 5 3 2 false psi (demo_flm 5)), (demo_flm 5), g, glm, w, sc, W, S.
  repeat (split; [assumption|]).
  destruct (analysed_coefs 5 3 1 3 0 2 false ltac:(lia) ltac:(lia) ltac:(lra) psi phi HF Base demo MW None true HX 0 g glm w sc W S Hg Ei An M) as (-> & _).
  assert (P0 : get1 phi 4 = 0%R).
  { destruct (Req_dec (get1 phi 4) 0) as [|Hne]; auto. exfalso.
    destruct (supp_scal 5 3 2 1 0 0 psi phi ltac:(lia) ltac:(lia) ltac:(lra) (or_intror (or_introl E)) 4 _ ltac:(lia)
      (scal_bandlimit_ok 5 1 2 true ltac:(lra)) Hne) as [H _]. simpl in H. lra. }
  unfold sub2, lin2. cbn [get2]. unfold scaling_coefs, Ls_of. rewrite (get2_mk 5 (2 * 5 - 1)) by lia. rewrite P0.
  intros E0. apply (demo_flm_ne 5 4 0 ltac:(lia) ltac:(lia)). rewrite <- E0, Rmult_0_r. ring.
Qed.

(*% ** C56: rotations *)
(*% D l m m' are arbitrary matrices acting on the orders of each degree, such as the Wigner matrices of a rotation *)

Lemma rot_harm D L spin a : harmonic L spin a -> harmonic L spin (rotate2 D L a).
Proof.
  intros (A1 & A2 & A). split; [reflexivity|]. split; [reflexivity|]. intros l m Hne.
  pose proof (mk2_nz _ _ _ _ _ Hne) as (B1 & B2). unfold rotate2 in Hne. rewrite get2_mk in Hne by lia.
  replace (L - 1 + m - (L - 1)) with m in Hne by lia. destruct (Z.leb_spec (Z.abs m) l); [|congruence].
  split; [|lia]. split; [|lia]. destruct (Z_le_dec (Z.abs spin) l) as [|Hs]; auto. exfalso. apply Hne.
  apply csumZ_zero. intros m' Hm. destruct (Ceq0_dec (get2 a l (L - 1 + m'))) as [->|Hn]; [ring|apply A in Hn; lia].
Qed.

Section Rot.
Variables (L N J_min J spin : Z) (lam : R) (mr : bool) (D : Z -> Z -> Z -> C).
Hypothesis HL : 1 <= L.
Hypothesis HN : 1 <= N <= L.
Hypothesis Hlam : (1 < lam)%R.
Variables (psi : arr3 C) (phi : arr1 R).
Hypothesis HF : filt L N J_min J spin lam psi phi.
Notation Lj j := (Lj_of L j lam mr).
Notation Nj j := (Nj_of L j N lam mr).
Notation L0 j := (L0_of j lam mr).
Notation Ls := (Ls_of L J_min lam mr).

Lemma rot_get2 B a l m : 0 <= l < B -> Z.abs m <= l ->
  get2 (rotate2 D B a) l (B - 1 + m) = csumZ (- l) (l + 1) (fun m' => Cmult (D l m m') (get2 a l (B - 1 + m'))).
Proof.
  intros Hl Hm. unfold rotate2. rewrite get2_mk by lia. replace (B - 1 + m - (B - 1)) with m by lia.
  now replace (Z.abs m <=? l) with true by (symmetry; apply Z.leb_le; lia).
Qed.
Lemma rot_get2_out B a l m : l < Z.abs m -> get2 (rotate2 D B a) l (B - 1 + m) = RtoC 0.
Proof.
  intros Hm. unfold rotate2. cbn [get2 mk2]. destruct (_ && _); [|reflexivity].
  replace (B - 1 + m - (B - 1)) with m by lia.
  now replace (Z.abs m <=? l) with false by (symmetry; apply Z.leb_gt; lia).
Qed.
Lemma rot_get3 B M a n l m : 0 <= n < 2 * M - 1 -> 0 <= l < B -> Z.abs m <= l ->
  get3 (rotate3 D B M a) n l (B - 1 + m) = csumZ (- l) (l + 1) (fun m' => Cmult (D l m m') (get3 a n l (B - 1 + m'))).
Proof.
  intros Hn Hl Hm. unfold rotate3. rewrite get3_mk by lia. replace (B - 1 + m - (B - 1)) with m by lia.
  now replace (Z.abs m <=? l) with true by (symmetry; apply Z.leb_le; lia).
Qed.
Lemma rot_get3_out B M a n l m : l < Z.abs m -> get3 (rotate3 D B M a) n l (B - 1 + m) = RtoC 0.
Proof.
  intros Hm. unfold rotate3. cbn [get3 mk3]. destruct (_ && _); [|reflexivity].
  replace (B - 1 + m - (B - 1)) with m by lia.
  now replace (Z.abs m <=? l) with false by (symmetry; apply Z.leb_gt; lia).
Qed.

Lemma rot_wc flm j : J_min <= j <= J -> wc L N lam mr psi (rotate2 D L flm) j = rotate3 D (Lj j) (Nj j) (wc L N lam mr psi flm j).
Proof.
  intros Hj. pose proof (f_range _ _ _ _ _ _ _ _ HF).
  destruct (sizes L N J_min J spin lam mr psi phi HL HN Hlam HF j ltac:(lia)) as (Z1 & Z2 & Z3 & Z4).
  unfold wc at 1. unfold wavelet_coefs, rotate3. apply mk3_ext. intros a l b Ha Hl Hb. cbv zeta.
  set (m := b - (Lj j - 1)).
  destruct (Z.leb_spec (Z.abs m) l).
  - rewrite rot_get2 by lia.
    rewrite (csumZ_ext _ _ (fun m0 => Cmult (D l m m0) (get3 (wc L N lam mr psi flm j) a l (Lj j - 1 + m0)))
      (fun m0 => if Z.even (a - (Nj j - 1) - (Nj j - 1)) && (L0 j <=? l) then
         Cmult (Cmult (D l m m0) (get2 flm l (L - 1 + m0))) (Cmult (RtoC (8 * PI ^ 2 / (2 * IZR l + 1)))
           (Cconj (get3 psi j l (L - 1 + (a - (Nj j - 1)))))) else RtoC 0)).
    2:{ intros m0 Hm. rewrite (wc_get L N lam mr psi flm j) by lia.
        replace (Lj j - 1 + m0 - (Lj j - 1)) with m0 by lia. destruct (_ && _); ring. }
    destruct (_ && _); [|symmetry; now apply csumZ_zero]. rewrite csumZ_mulr. ring.
  - rewrite rot_get2_out by lia. destruct (_ && _); ring.
Qed.
Lemma rot_sc flm : scaling_coefs L phi (rotate2 D L flm) Ls = rotate2 D Ls (scaling_coefs L phi flm Ls).
Proof.
  pose proof (Ls_range L J_min lam mr HL ltac:(lra)).
  unfold scaling_coefs at 1. unfold rotate2 at 2. apply mk2_ext. intros l b Hl Hb. cbv zeta. set (m := b - (Ls - 1)).
  destruct (Z.leb_spec (Z.abs m) l).
  - rewrite rot_get2, <- csumZ_mulr by lia. apply csumZ_ext. intros m0 Hm. unfold scaling_coefs.
    rewrite get2_mk by lia. replace (Ls - 1 + m0 - (Ls - 1)) with m0 by lia. ring.
  - rewrite rot_get2_out by lia. ring.
Qed.
Lemma rot_wpart W j l m : J_min <= j <= J -> 0 <= l < L -> Z.abs m <= l ->
  wavelet_part L psi j (Lj j) (Nj j) (L0 j) (rotate3 D (Lj j) (Nj j) W) l m
  = csumZ (- l) (l + 1) (fun m' => Cmult (D l m m') (wavelet_part L psi j (Lj j) (Nj j) (L0 j) W l m')).
Proof.
  intros Hj Hl Hm. unfold wavelet_part.
  destruct ((L0 j <=? l) && (l <? Lj j)) eqn:E.
  - apply andb_true_iff in E as [E1 E2]. apply Z.leb_le in E1. apply Z.ltb_lt in E2.
    replace (Z.abs m <? Lj j) with true by zb. cbn [andb].
    rewrite (csumZ_ext (- l) (l + 1) _ (fun m' => csumZ (- Nj j + 1) (Nj j) (fun n => if Z.even (n - (Nj j - 1))
       then Cmult (Cmult (D l m m') (get3 W (Nj j - 1 + n) l (Lj j - 1 + m'))) (get3 psi j l (L - 1 + n)) else RtoC 0))).
    2:{ intros m' Hm'. replace (Z.abs m' <? Lj j) with true by zb. cbn [andb]. rewrite <- csumZ_mul. apply csumZ_ext.
        intros n Hn. destruct (Z.even _); ring. }
    rewrite csumZ_swap. apply csumZ_ext. intros n Hn. destruct (Z.even _); [|symmetry; now apply csumZ_zero].
    rewrite csumZ_mulr, rot_get3 by lia. reflexivity.
  - cbn [andb]. symmetry. apply csumZ_zero. intros. ring.
Qed.
Lemma rot_wpart_out W j l m : l < Z.abs m ->
  wavelet_part L psi j (Lj j) (Nj j) (L0 j) (rotate3 D (Lj j) (Nj j) W) l m = RtoC 0.
Proof.
  intros Hm. unfold wavelet_part. destruct (_ && _); auto. apply csumZ_zero. intros n Hn.
  destruct (Z.even _); auto. rewrite rot_get3_out by lia. ring.
Qed.
Lemma rot_sy W W' S : (forall j, J_min <= j <= J -> W' j = rotate3 D (Lj j) (Nj j) (W j)) ->
  synthesised L J_min J psi phi (szf L N lam mr) W' Ls (rotate2 D Ls S)
  = rotate2 D L (synthesised L J_min J psi phi (szf L N lam mr) W Ls S).
Proof.
  intros HW. unfold synthesised at 1. unfold rotate2 at 2. apply mk2_ext. intros l b Hl Hb. cbv zeta. set (m := b - (L - 1)).
  rewrite (csumZ_ext J_min _ _ (fun j => wavelet_part L psi j (Lj j) (Nj j) (L0 j) (rotate3 D (Lj j) (Nj j) (W j)) l m))
    by (intros; unfold szf; now rewrite HW by lia).
  destruct (Z.leb_spec (Z.abs m) l).
  - rewrite (csumZ_ext J_min _ _ (fun j => csumZ (- l) (l + 1) (fun m' => Cmult (D l m m') (wavelet_part L psi j (Lj j) (Nj j) (L0 j) (W j) l m'))))
      by (intros; apply rot_wpart; lia).
    rewrite csumZ_swap.
    replace (scaling_part phi Ls (rotate2 D Ls S) l m)
      with (csumZ (- l) (l + 1) (fun m' => Cmult (D l m m') (scaling_part phi Ls S l m'))).
    + rewrite <- csumZ_plus. apply csumZ_ext. intros m' Hm. unfold synthesised. rewrite get2_mk by lia. cbv zeta.
      replace (L - 1 + m' - (L - 1)) with m' by lia. rewrite csumZ_mul, <- Cmult_plus_distr_l. reflexivity.
    + unfold scaling_part. destruct (Z.ltb_spec l Ls); cbn [andb].
      * replace (Z.abs m <? Ls) with true by zb. rewrite rot_get2, <- csumZ_mulr by lia. apply csumZ_ext. intros m' Hm.
        replace (Z.abs m' <? Ls) with true by zb. ring.
      * apply csumZ_zero. intros. ring.
  - rewrite csumZ_zero by (intros; apply rot_wpart_out; lia). unfold scaling_part.
    rewrite rot_get2_out by lia. destruct (_ && _); ring.
Qed.
End Rot.

(*@ C56_analysis_commutes_with_rotations *)
Lemma rot_analysis : forall D b O f flm f' L N lam J_min J spin spin0 s nside reality mr psi phi w sc W S w' sc' W' S',
  1 <= L -> 1 <= N <= L -> (1 < lam)%R -> j_max L lam = Ok J -> exact_lib b O L J_min lam spin s nside reality ->
  is_harmonic L spin reality flm -> b_inv (lib_of b O) flm L spin s nside reality = Ok f ->
  is_harmonic L spin reality (rotate2 D L flm) -> b_inv (lib_of b O) (rotate2 D L flm) L spin s nside reality = Ok f' ->
  analysed b O f L N J_min lam spin spin0 s nside reality mr psi phi w sc ->
  measured (lib_of b O) L N J_min J lam spin s nside reality mr w sc W S ->
  analysed b O f' L N J_min lam spin spin0 s nside reality mr psi phi w' sc' ->
  measured (lib_of b O) L N J_min J lam spin s nside reality mr w' sc' W' S' ->
  (forall Ls, scal_bandlimit L J_min lam mr = Ok Ls -> S' = rotate2 D Ls S) /\
  (forall j Lj Nj L0j, J_min <= j <= J -> LN_j L j N lam mr = Ok (Lj, Nj, L0j) -> W' j = rotate3 D Lj Nj (W j)).
Proof.
  intros D b O f flm f' L N lam J_min J spin spin0 s nside reality mr psi phi w sc W S w' sc' W' S'
    HL HN Hl EJ HX Hh Ef Hh' Ef' A M A' M'.
  pose proof (filt_J L N J_min J spin spin0 lam psi phi HL ltac:(lia) Hl (an_filters _ _ _ _ _ _ _ _ _ _ _ _ _ _ _ _ _ A) EJ) as HF.
  destruct (analysed_coefs L N J_min J spin lam mr HL HN Hl psi phi HF b O s nside reality HX spin0 f flm w sc W S Hh Ef A M) as (-> & EW).
  destruct (analysed_coefs L N J_min J spin lam mr HL HN Hl psi phi HF b O s nside reality HX spin0 f' _ w' sc' W' S' Hh' Ef' A' M') as (-> & EW').
  split.
  - intros Ls E. rewrite (Ls_eq L J_min lam mr Ls ltac:(lra) E). now apply rot_sc.
  - intros j x1 x2 x3 Hj E. rewrite LN_j_ok in E by lra. apply Ok_inj in E. injection E as <- <- <-.
    rewrite EW, EW' by lia. eapply rot_wc; eauto.
Qed.
(*@ C56_synthesis_commutes_with_rotations *)
Lemma rot_synthesis : forall D b O L N lam J_min J spin spin0 s nside reality mr psi phi w sc W S w' sc' W' S' g glm g' glm',
  1 <= L -> 1 <= N <= L -> (1 < lam)%R -> j_max L lam = Ok J -> exact_lib b O L J_min lam spin s nside reality ->
  measured (lib_of b O) L N J_min J lam spin s nside reality mr w sc W S ->
  measured (lib_of b O) L N J_min J lam spin s nside reality mr w' sc' W' S' ->
  (forall Ls, scal_bandlimit L J_min lam mr = Ok Ls -> S' = rotate2 D Ls S) ->
  (forall j Lj Nj L0j, J_min <= j <= J -> LN_j L j N lam mr = Ok (Lj, Nj, L0j) -> W' j = rotate3 D Lj Nj (W j)) ->
  resynthesised b O w sc L N J_min lam spin spin0 s nside reality mr psi phi g ->
  b_fwd (lib_of b O) g L spin s nside reality = Ok glm ->
  resynthesised b O w' sc' L N J_min lam spin spin0 s nside reality mr psi phi g' ->
  b_fwd (lib_of b O) g' L spin s nside reality = Ok glm' ->
  glm' = rotate2 D L glm.
Proof.
  intros D b O L N lam J_min J spin spin0 s nside reality mr psi phi w sc W S w' sc' W' S' g glm g' glm'
    HL HN Hl EJ HX M M' HS HW R Eg R' Eg'.
  pose proof (filt_J L N J_min J spin spin0 lam psi phi HL ltac:(lia) Hl (rs_filters _ _ _ _ _ _ _ _ _ _ _ _ _ _ _ _ _ R) EJ) as HF.
  destruct (resyn_coefs L N J_min J spin lam mr HL HN Hl psi phi HF b O s nside reality HX spin0 w sc W S g glm M R Eg) as (-> & _).
  destruct (resyn_coefs L N J_min J spin lam mr HL HN Hl psi phi HF b O s nside reality HX spin0 w' sc' W' S' g' glm' M' R' Eg') as (-> & _).
  rewrite (HS _ (scal_bandlimit_ok L J_min lam mr ltac:(lra))). eapply rot_sy; eauto.
  intros j Hj. exact (HW j _ _ _ Hj (LN_j_ok L j N lam mr ltac:(lra))).
Qed.

(*% a swap of the orders m and -m, with a phase *)
(*@E C56_example *)
Lemma ex_c56 : exists D f f', exact_lib Base demo 5 1 2 0 MW None false /\ is_harmonic 5 0 false (demo_flm 5) /\
  b_inv demo (demo_flm 5) 5 0 MW None false = Ok f /\
  is_harmonic 5 0 false (rotate2 D 5 (demo_flm 5)) /\ b_inv demo (rotate2 D 5 (demo_flm 5)) 5 0 MW None false = Ok f' /\
  get2 (rotate2 D 5 (demo_flm 5)) 2 (5 - 1 + 1) = Cmult (0, 1)%R (get2 (demo_flm 5) 2 (5 - 1 - 1)) /\
  exists psi phi w sc W S w' sc' W' S', analysed Base demo f 5 3 1 2 0 0 MW None false true psi phi w sc /\
    measured demo 5 3 1 3 2 0 MW None false true w sc W S /\
    analysed Base demo f' 5 3 1 2 0 0 MW None false true psi phi w' sc' /\
    measured demo 5 3 1 3 2 0 MW None false true w' sc' W' S'.
Proof.
  set (D := fun _ m m' : Z => if m + m' =? 0 then (0, 1)%R else RtoC 0 : C).
  assert (HX0 : exact_b demo 0 MW None false) by (apply demo_exact_b; left; reflexivity).
  pose proof (demo_lib Base 5 1 2 false) as HX.
  assert (Hh : is_harmonic 5 0 false (demo_flm 5)) by apply (demo_flm_ok 5 false).
  assert (Hr : is_harmonic 5 0 false (rotate2 D 5 (demo_flm 5))) by (split; [apply rot_harm, Hh|discriminate]).
  destruct (proj1 HX0 5 ltac:(lia) _ Hh) as (f & Ef & _). destruct (proj1 HX0 5 ltac:(lia) _ Hr) as (f' & Ef' & _).
  exists D, f, f'. repeat (split; [assumption|]). split.
  { rewrite rot_get2 by lia. rewrite (csumZ_ext _ _ _ (fun m' => if -1 =? m' then Cmult (0, 1)%R (get2 (demo_flm 5) 2 (5 - 1 - 1)) else RtoC 0)).
    - cbv [csumZ zrange]. simpl. ring.
    - intros m' Hm. unfold D. destruct (Z.eqb_spec (1 + m') 0) as [E|E].
      + replace m' with (-1) by lia. reflexivity.
      + replace (-1 =? m') with false by (symmetry; apply Z.eqb_neq; lia). ring. }
  destruct (v5 3 1 ltac:(lia) ltac:(lia)) as (psi & phi & E & T & _). exists psi, phi.
  destruct (rt_vec demo f (demo_flm 5) 5 3 2 1 3 0 MW None false true psi phi) as (w & sc & A & _); auto using J5; try lia; try lra.
  destruct (rt_vec demo f' (rotate2 D 5 (demo_flm 5)) 5 3 2 1 3 0 MW None false true psi phi) as (w' & sc' & A' & _); auto using J5; try lia; try lra.
  destruct (an_measurable Base demo f (demo_flm 5) 5 3 2 1 3 0 0 MW None false true psi phi w sc) as (W & S & M);
    auto using J5; try lia; try lra; [left; auto|].
  destruct (an_measurable Base demo f' (rotate2 D 5 (demo_flm 5)) 5 3 2 1 3 0 0 MW None false true psi phi w' sc') as (W' & S' & M');
    auto using J5; try lia; try lra; [left; auto|].
  exists w, sc, W, S, w', sc', W', S'. split; [left; auto|]. split; [exact M|]. split; [left; auto|]. exact M'.
Qed.

(*% ** C57: localisation in frequency *)

Lemma psi_power L N lam J_min J spin spin0 psi phi : 1 <= L -> 1 <= N -> (1 < lam)%R ->
  is_filters L N J_min lam spin spin0 psi phi -> j_max L lam = Ok J ->
  forall j l n, 0 <= j <= J -> 0 <= l < L -> Z.abs n < L -> get3 psi j l (L - 1 + n) <> RtoC 0 ->
  (powerRZ lam (j - 1) < IZR l < powerRZ lam (j + 1))%R.
Proof.
  intros HL HN Hl HI EJ j l n Hj Hll Hn Hne. pose proof (LN_j_ok L j N lam true ltac:(lra)) as ELN.
  destruct HI as [E|E].
  - destruct (supp_looped L N lam J_min J spin spin0 psi phi HL HN Hl E EJ j l n _ _ _ Hj Hll Hn ELN Hne) as (_ & H & _). exact H.
  - destruct (supp_vec L N lam J_min J spin spin0 psi phi HL HN Hl E EJ j l n _ _ _ Hj Hll Hn ELN Hne) as (H & _). exact H.
Qed.
Lemma phi_power L N lam J_min spin spin0 psi phi : 1 <= L -> 1 <= N -> (1 < lam)%R ->
  is_filters L N J_min lam spin spin0 psi phi ->
  forall l, 0 <= l < L -> get1 phi l <> 0%R -> (IZR l < powerRZ lam J_min)%R.
Proof.
  intros HL HN Hl HI l Hll Hne.
  destruct (supp_scal L N lam J_min spin spin0 psi phi HL HN Hl HI l _ Hll (scal_bandlimit_ok L J_min lam true ltac:(lra)) Hne) as [H _].
  exact H.
Qed.

(*@ C57_wavelet_coefficients_localised *)
Lemma localised : forall b O f flm L N lam J_min J spin spin0 s nside reality mr psi phi w sc W S,
  1 <= L -> 1 <= N <= L -> (1 < lam)%R -> j_max L lam = Ok J -> exact_lib b O L J_min lam spin s nside reality ->
  is_harmonic L spin reality flm -> b_inv (lib_of b O) flm L spin s nside reality = Ok f ->
  analysed b O f L N J_min lam spin spin0 s nside reality mr psi phi w sc ->
  measured (lib_of b O) L N J_min J lam spin s nside reality mr w sc W S ->
  (forall j Lj Nj L0j n l m, J_min <= j <= J -> LN_j L j N lam mr = Ok (Lj, Nj, L0j) ->
     get3 (W j) (Nj - 1 + n) l (Lj - 1 + m) <> RtoC 0 ->
     (powerRZ lam (j - 1) < IZR l < powerRZ lam (j + 1))%R /\ 1 <= l < L /\ Z.abs spin <= l /\ Z.abs m <= l /\
     Z.abs n <= l /\ Z.abs n < N /\ Z.even (n - (N - 1)) = true /\ get2 flm l (L - 1 + m) <> RtoC 0) /\
  (forall Ls l m, scal_bandlimit L J_min lam mr = Ok Ls -> get2 S l (Ls - 1 + m) <> RtoC 0 ->
     (IZR l < powerRZ lam J_min)%R /\ Z.abs spin <= l /\ Z.abs m <= l /\ get2 flm l (L - 1 + m) <> RtoC 0).
Proof.
  intros b O f flm L N lam J_min J spin spin0 s nside reality mr psi phi w sc W S HL HN Hl EJ HX Hh Ef A M.
  pose proof (an_filters _ _ _ _ _ _ _ _ _ _ _ _ _ _ _ _ _ A) as HI.
  pose proof (filt_J L N J_min J spin spin0 lam psi phi HL ltac:(lia) Hl HI EJ) as HF. pose proof (f_range _ _ _ _ _ _ _ _ HF).
  destruct (analysed_coefs L N J_min J spin lam mr HL HN Hl psi phi HF b O s nside reality HX spin0 f flm w sc W S Hh Ef A M) as (-> & EW).
  split.
  - intros j x1 x2 x3 n l m Hj E Hne. rewrite LN_j_ok in E by lra. apply Ok_inj in E. injection E as <- <- <-.
    rewrite EW in Hne by lia. destruct (sizes L N J_min J spin lam mr psi phi HL HN Hl HF j ltac:(lia)) as (Z1 & Z2 & Z3 & Z4).
    pose proof (mk3_nz _ _ _ _ _ _ _ Hne) as (B1 & B2 & B3). rewrite (wc_get L N lam mr psi flm j) in Hne by lia.
    destruct (_ && _) eqn:Eg; [|congruence]. apply Cmult_nz in Hne as [_ Hne]. apply Cmult_nz in Hne as [Hf Hp].
    apply Cconj_nz in Hp. replace (Lj_of L j lam mr - 1 + m - (Lj_of L j lam mr - 1)) with m in Hf by lia.
    replace (Nj_of L j N lam mr - 1 + n - (Nj_of L j N lam mr - 1)) with n in Hp by lia.
    pose proof (proj2 (proj2 (proj1 Hh)) l m Hf) as (F1 & F2).
    pose proof (psi_power L N lam J_min J spin spin0 psi phi HL ltac:(lia) Hl HI EJ j l n ltac:(lia) ltac:(lia) ltac:(lia) Hp) as P.
    destruct (f_psi_supp _ _ _ _ _ _ _ _ HF false j l n ltac:(lia) ltac:(lia) ltac:(lia) Hp) as (Q1 & Q2 & Q3 & Q4 & Q5).
    destruct (Nj_facts L j N lam false HL ltac:(lra) ltac:(lia)) as (_ & Nf & _). rewrite Nf in * by reflexivity.
    assert (1 <= l). { destruct (Z.eq_dec l 0) as [->|]; [|lia]. pose proof (pw_pos lam (j - 1) ltac:(lra)). lra. }
    repeat split; auto; try lia; lra.
  - intros Ls l m E Hne. rewrite (Ls_eq L J_min lam mr Ls ltac:(lra) E) in *.
    pose proof (mk2_nz _ _ _ _ _ Hne) as (B1 & B2). pose proof (Ls_range L J_min lam mr HL ltac:(lra)).
    unfold scaling_coefs in Hne. rewrite get2_mk in Hne by lia. cbv zeta in Hne.
    replace (Ls_of L J_min lam mr - 1 + m - (Ls_of L J_min lam mr - 1)) with m in Hne by lia.
    apply Cmult_nz in Hne as [Hf Hp]. pose proof (proj2 (proj2 (proj1 Hh)) l m Hf) as (F1 & F2).
    assert (get1 phi l <> 0%R). { intros E0. apply Hp. rewrite E0. f_equal. ring. }
    pose proof (phi_power L N lam J_min spin spin0 psi phi HL ltac:(lia) Hl HI l ltac:(lia) ltac:(assumption)).
    repeat split; auto; lia.
Qed.

(*@ C57_at_most_two_scales *)
Lemma two_scales : forall b O f flm L N lam J_min J spin spin0 s nside reality mr psi phi w sc W S,
  1 <= L -> 1 <= N <= L -> (1 < lam)%R -> j_max L lam = Ok J -> exact_lib b O L J_min lam spin s nside reality ->
  is_harmonic L spin reality flm -> b_inv (lib_of b O) flm L spin s nside reality = Ok f ->
  analysed b O f L N J_min lam spin spin0 s nside reality mr psi phi w sc ->
  measured (lib_of b O) L N J_min J lam spin s nside reality mr w sc W S ->
  forall l j j' a c a' c', J_min <= j <= J -> J_min <= j' <= J ->
  get3 (W j) a l c <> RtoC 0 -> get3 (W j') a' l c' <> RtoC 0 -> Z.abs (j - j') <= 1.
Proof.
  intros b O f flm L N lam J_min J spin spin0 s nside reality mr psi phi w sc W S HL HN Hl EJ HX Hh Ef A M.
  destruct (localised b O f flm L N lam J_min J spin spin0 s nside reality mr psi phi w sc W S HL HN Hl EJ HX Hh Ef A M) as (P & _).
  intros l j j' a1 b1 a' b' Hj Hj' H1 H2.
  assert (X : forall j a b, J_min <= j <= J -> get3 (W j) a l b <> RtoC 0 -> (powerRZ lam (j - 1) < IZR l < powerRZ lam (j + 1))%R).
  { intros i x y Hi Hne. pose proof (LN_j_ok L i N lam mr ltac:(lra)) as E.
    replace x with (Nj_of L i N lam mr - 1 + (x - (Nj_of L i N lam mr - 1))) in Hne by lia.
    replace y with (Lj_of L i lam mr - 1 + (y - (Lj_of L i lam mr - 1))) in Hne by lia.
    destruct (P i _ _ _ _ _ _ Hi E Hne) as (Q & _). exact Q. }
  pose proof (X j a1 b1 Hj H1) as P1. pose proof (X j' a' b' Hj' H2) as P2.
  assert (Y : forall i i', (powerRZ lam (i - 1) < powerRZ lam (i' + 1))%R -> i - 1 < i' + 1).
  { intros i i' Hlt. destruct (Z_lt_le_dec (i - 1) (i' + 1)) as [|Hle]; auto. exfalso.
    assert (powerRZ lam (i' + 1) <= powerRZ lam (i - 1))%R; [|lra].
    destruct (Z.eq_dec (i' + 1) (i - 1)) as [->|]; [lra|]. left. apply pw_lt; auto. lia. }
  pose proof (Y j j' ltac:(lra)). pose proof (Y j' j ltac:(lra)). lia.
Qed.

(*% the demo field: some wavelet coefficient of degree 4 is not zero *)
(*@E C57_example *)
Lemma ex_c57 : exists psi phi f w sc W S j a b, exact_lib Base demo 5 1 2 0 MW None true /\ is_harmonic 5 0 true (demo_flm 5) /\
  b_inv demo (demo_flm 5) 5 0 MW None true = Ok f /\
  analysed Base demo f 5 3 1 2 0 0 MW None true true psi phi w sc /\
  measured demo 5 3 1 3 2 0 MW None true true w sc W S /\
  1 <= j <= 3 /\ get3 (W j) a 4 b <> RtoC 0.
Proof.
  destruct ex_steer as (psi & phi & E & _ & _ & (j & m & Hj & Hm & Hne)).
  assert (HX0 : exact_b demo 0 MW None true) by (apply demo_exact_b; left; reflexivity).
  pose proof (demo_lib Base 5 1 2 true) as HX.
  assert (Hh : is_harmonic 5 0 true (demo_flm 5)) by apply (demo_flm_ok 5 true).
  destruct (f5 MW true (or_introl eq_refl)) as (f & Ef).
  pose proof (filt_J 5 3 1 3 0 0 2 psi phi ltac:(lia) ltac:(lia) ltac:(lra) (or_introl E) J5) as HF.
  destruct (rt_loop demo f (demo_flm 5) 5 3 2 1 3 0 0 MW None true true psi phi) as (w & sc & A & _); auto using J5; try lia; try lra.
  { intros _. split; [reflexivity|apply demo_reads]. }
  assert (An : analysed Base demo f 5 3 1 2 0 0 MW None true true psi phi w sc) by (right; auto).
  destruct (an_measurable Base demo f (demo_flm 5) 5 3 2 1 3 0 0 MW None true true psi phi w sc) as (W & S & M); auto using J5; try lia; try lra.
  destruct (analysed_coefs 5 3 1 3 0 2 true ltac:(lia) ltac:(lia) ltac:(lra) psi phi HF Base demo MW None true HX 0 f (demo_flm 5) w sc W S Hh Ef An M) as (_ & EW).
  destruct (f_psi_supp _ _ _ _ _ _ _ _ HF true j 4 m ltac:(lia) ltac:(lia) ltac:(lia) Hne) as (Q1 & Q2 & Q3 & Q4 & Q5).
  exists psi, phi, f, w, sc, W, S, j, (Nj_of 5 j 3 2 true - 1 + m), (Lj_of 5 j 2 true - 1 + 0).
  repeat (split; [assumption|]). rewrite EW by lia.
  destruct (sizes 5 3 1 3 0 2 true psi phi ltac:(lia) ltac:(lia) ltac:(lra) HF j ltac:(lia)) as (Z1 & Z2 & Z3 & Z4).
  rewrite (wc_get 5 3 2 true psi (demo_flm 5) j) by lia.
  replace (Nj_of 5 j 3 2 true - 1 + m - (Nj_of 5 j 3 2 true - 1)) with m by lia.
  replace (Lj_of 5 j 2 true - 1 + 0 - (Lj_of 5 j 2 true - 1)) with 0 by lia. rewrite Q4.
  replace (L0_of j 2 true <=? 4) with true by (symmetry; apply Z.leb_le; lia). cbn [andb].
  pose proof PI_RGT_0. apply Cmult_neq_0; [intros E0; apply RtoC_inj in E0|apply Cmult_neq_0].
  - assert (0 < 8 * PI ^ 2 / (2 * 4 + 1))%R by (apply Rdiv_lt_0_compat; nra). lra.
  - apply demo_flm_ne; lia.
  - intros E0. apply Hne. rewrite <- (Cconj_conj (get3 psi j 4 (5 - 1 + m))), E0. apply Cconj_0.
Qed.

(*% ** C58: smooth fields are carried by the scaling map alone, oscillating ones by the wavelet maps *)

(*@ C58_smooth_fields *)
Lemma smooth : forall b O f flm L N lam J_min J spin s nside reality mr psi phi w sc W S,
  1 <= L -> 1 <= N <= L -> (1 < lam)%R -> j_max L lam = Ok J -> exact_lib b O L J_min lam spin s nside reality ->
  is_harmonic L spin reality flm -> b_inv (lib_of b O) flm L spin s nside reality = Ok f ->
  analysed b O f L N J_min lam spin 0 s nside reality mr psi phi w sc ->
  measured (lib_of b O) L N J_min J lam spin s nside reality mr w sc W S ->
  (forall l m, get2 flm l (L - 1 + m) <> RtoC 0 -> (IZR l <= powerRZ lam (J_min - 1))%R) ->
  (forall j a l c, J_min <= j <= J -> get3 (W j) a l c = RtoC 0) /\
  (forall Ls l m, scal_bandlimit L J_min lam mr = Ok Ls -> get2 S l (Ls - 1 + m) = get2 flm l (L - 1 + m)).
Proof.
  intros b O f flm L N lam J_min J spin s nside reality mr psi phi w sc W S HL HN Hl EJ HX Hh Ef A M Hsm.
  pose proof (an_filters _ _ _ _ _ _ _ _ _ _ _ _ _ _ _ _ _ A) as HI.
  pose proof (filt_J L N J_min J spin 0 lam psi phi HL ltac:(lia) Hl HI EJ) as HF. pose proof (f_range _ _ _ _ _ _ _ _ HF).
  assert (Hpw : forall i j, i <= j -> (powerRZ lam i <= powerRZ lam j)%R).
  { intros i j Hij. destruct (Z.eq_dec i j) as [->|]; [lra|]. left. apply pw_lt; auto. lia. }
  split.
  - intros j a l k Hj. destruct (Ceq0_dec (get3 (W j) a l k)) as [|Hne]; auto. exfalso.
    destruct (localised b O f flm L N lam J_min J spin 0 s nside reality mr psi phi w sc W S HL HN Hl EJ HX Hh Ef A M) as (P & _).
    pose proof (LN_j_ok L j N lam mr ltac:(lra)) as E.
    replace a with (Nj_of L j N lam mr - 1 + (a - (Nj_of L j N lam mr - 1))) in Hne by lia.
    replace k with (Lj_of L j lam mr - 1 + (k - (Lj_of L j lam mr - 1))) in Hne by lia.
    destruct (P j _ _ _ _ _ _ Hj E Hne) as (Q & _ & _ & _ & _ & _ & _ & Hf). apply Hsm in Hf.
    pose proof (Hpw (J_min - 1) (j - 1) ltac:(lia)). lra.
  - intros Ls l m E. rewrite (Ls_eq L J_min lam mr Ls ltac:(lra) E).
    destruct (analysed_coefs L N J_min J spin lam mr HL HN Hl psi phi HF b O s nside reality HX 0 f flm w sc W S Hh Ef A M) as (-> & _).
    pose proof (Ls_range L J_min lam mr HL ltac:(lra)) as HLs.
    destruct (Ceq0_dec (get2 flm l (L - 1 + m))) as [E0|Hne].
    + rewrite E0. unfold scaling_coefs. cbn [get2 mk2]. destruct (_ && _); [|reflexivity].
      replace (Ls_of L J_min lam mr - 1 + m - (Ls_of L J_min lam mr - 1)) with m by lia. rewrite E0. ring.
    + pose proof (proj2 (proj2 (proj1 Hh)) l m Hne) as (F1 & F2). pose proof (Hsm l m Hne) as Hlow.
      assert (HlLs : l < Ls_of L J_min lam mr).
      { unfold Ls_of. destruct mr; [|lia]. apply Z.min_glb_lt; [|lia]. apply Z.nle_gt. intros Hle. apply rceil_le_iff in Hle.
        pose proof (pw_lt lam (J_min - 1) J_min Hl ltac:(lia)). lra. }
      unfold scaling_coefs. rewrite get2_mk by lia.
      replace (Ls_of L J_min lam mr - 1 + m - (Ls_of L J_min lam mr - 1)) with m by lia.
      replace (sqrt (4 * PI / (2 * IZR l + 1)) * get1 phi l)%R with 1%R; [ring|].
      assert (Ephi : phi = phid lam L J_min spin 0).
      { destruct HI as [E'|[E'|E']].
        - destruct (inv_dir lam L J_min Hl HL N spin 0 psi phi ltac:(lia) E') as (J1 & _ & _ & _ & ->). reflexivity.
        - destruct (inv_dvec lam L J_min Hl HL N spin 0 psi phi ltac:(lia) E') as (J1 & _ & _ & _ & _ & ->). reflexivity.
        - apply jax_to_vec in E'; [|assumption|assumption|lia].
          destruct (inv_dvec lam L J_min Hl HL N spin 0 psi phi ltac:(lia) E') as (J1 & _ & _ & _ & _ & ->). reflexivity. }
      rewrite Ephi. unfold phid. rewrite get1_mk by lia. unfold el_min.
      replace (Z.max (Z.abs spin) (Z.abs 0) <=? l) with true by (symmetry; apply Z.leb_le; lia).
      rewrite kv_one by (auto; apply HQ). rewrite sqrt_1. unfold wsp, cphi. rewrite Z.eqb_refl.
      destruct (two_l1 l ltac:(lia)) as [E2 Hp]. pose proof PI_RGT_0. rewrite E2, !Rmult_1_r, <- sqrt_mult.
      * replace (4 * PI / (2 * IZR l + 1) * ((2 * IZR l + 1) / (4 * PI)))%R with 1%R by (field; lra). now rewrite sqrt_1.
      * apply Rdiv_le_0_compat; lra.
      * apply Rdiv_le_0_compat; lra.
Qed.
(*@ C58_oscillating_fields *)
Lemma oscillating : forall b O f flm L N lam J_min J spin spin0 s nside reality mr psi phi w sc W S,
  1 <= L -> 1 <= N <= L -> (1 < lam)%R -> j_max L lam = Ok J -> exact_lib b O L J_min lam spin s nside reality ->
  is_harmonic L spin reality flm -> b_inv (lib_of b O) flm L spin s nside reality = Ok f ->
  analysed b O f L N J_min lam spin spin0 s nside reality mr psi phi w sc ->
  measured (lib_of b O) L N J_min J lam spin s nside reality mr w sc W S ->
  (forall l m, get2 flm l (L - 1 + m) <> RtoC 0 -> (powerRZ lam J_min <= IZR l)%R) ->
  forall l k, get2 S l k = RtoC 0.
Proof.
  intros b O f flm L N lam J_min J spin spin0 s nside reality mr psi phi w sc W S HL HN Hl EJ HX Hh Ef A M Hos l k.
  destruct (localised b O f flm L N lam J_min J spin spin0 s nside reality mr psi phi w sc W S HL HN Hl EJ HX Hh Ef A M) as (_ & P).
  destruct (Ceq0_dec (get2 S l k)) as [|Hne]; auto. exfalso. pose proof (scal_bandlimit_ok L J_min lam mr ltac:(lra)) as E.
  replace k with (Ls_of L J_min lam mr - 1 + (k - (Ls_of L J_min lam mr - 1))) in Hne by lia.
  destruct (P _ _ _ E Hne) as (Q & _ & _ & Hf). apply Hos in Hf. lra.
Qed.

Lemma cut_harm L spin reality c flm : is_harmonic L spin reality flm -> is_harmonic L spin reality (scale_l c flm).
Proof.
  intros ((H1 & H2 & H) & Hr). unfold scale_l. rewrite H1, H2. split.
  - split; [reflexivity|]. split; [reflexivity|]. intros l m Hne. apply H. intros E. apply Hne. cbn [get2 mk2].
    destruct (_ && _); [|reflexivity]. rewrite E. ring.
  - intros Ht l m. specialize (Hr Ht l m). cbn [get2 mk2].
    destruct (Z_lt_le_dec (Z.abs m) L) as [Hm|Hm].
    + replace (inb (2 * L - 1) (L - 1 - m)) with true by (symmetry; apply inb_in; lia).
      replace (inb (2 * L - 1) (L - 1 + m)) with true by (symmetry; apply inb_in; lia).
      destruct (inb L l); cbn [andb]; [|change (@zero C _) with (RtoC 0); rewrite Cconj_0; ring].
      rewrite Hr, !Cmult_conj, !Cconj_RtoC. ring.
    + replace (inb (2 * L - 1) (L - 1 - m)) with false by (symmetry; apply not_true_iff_false; rewrite inb_true; lia).
      replace (inb (2 * L - 1) (L - 1 + m)) with false by (symmetry; apply not_true_iff_false; rewrite inb_true; lia).
      rewrite !andb_false_r. change (@zero C _) with (RtoC 0). rewrite Cconj_0. ring.
Qed.

(*% a field with the degrees 0, 1, 2 only, analysed from the scale J_min = 2 on *)
(*@E C58_example *)
Lemma ex_c58 : exists flm f psi phi w sc W S, exact_lib Base demo 5 2 2 0 MW None true /\ is_harmonic 5 0 true flm /\
  b_inv demo flm 5 0 MW None true = Ok f /\
  analysed Base demo f 5 3 2 2 0 0 MW None true true psi phi w sc /\
  measured demo 5 3 2 3 2 0 MW None true true w sc W S /\
  (forall l m, get2 flm l (5 - 1 + m) <> RtoC 0 -> (IZR l <= powerRZ 2 (2 - 1))%R) /\
  (forall l m, 0 <= l <= 2 -> Z.abs m <= l -> get2 flm l (5 - 1 + m) <> RtoC 0).
Proof.
  set (c := fun l : Z => if l <=? 2 then 1%R else 0%R). set (flm := scale_l c (demo_flm 5)).
  assert (HX0 : exact_b demo 0 MW None true) by (apply demo_exact_b; left; reflexivity).
  pose proof (demo_lib Base 5 2 2 true) as HX.
  assert (Hh : is_harmonic 5 0 true flm) by (apply cut_harm, (demo_flm_ok 5 true); lia).
  destruct (proj1 HX0 5 ltac:(lia) _ Hh) as (f & Ef & _).
  destruct (v5 3 2 ltac:(lia) ltac:(lia)) as (psi & phi & E & T & _).
  destruct (rt_vec demo f flm 5 3 2 2 3 0 MW None true true psi phi) as (w & sc & A & _); auto using J5; try lia; try lra.
  destruct (an_measurable Base demo f flm 5 3 2 2 3 0 0 MW None true true psi phi w sc) as (W & S & M);
    auto using J5; try lia; try lra; [left; auto|].
  exists flm, f, psi, phi, w, sc, W, S. repeat (split; [solve [auto | left; auto]|]). split.
  - intros l m Hne. unfold flm, scale_l in Hne. cbn [get2 mk2] in Hne.
    destruct (_ && _); [|exfalso; apply Hne; reflexivity]. unfold c in Hne. destruct (Z.leb_spec l 2).
    + replace (powerRZ 2 (2 - 1)) with 2%R by (simpl; lra). apply IZR_le. lia.
    + exfalso. apply Hne. ring.
  - intros l m Hl Hm. unfold flm, scale_l. cbn [demo_flm rows cols mk2]. rewrite get2_mk by lia. unfold c.
    replace (l <=? 2) with true by (symmetry; apply Z.leb_le; lia). rewrite Cmult_1_l. apply demo_flm_ne; lia.
Qed.

(*% ** C59: the wavelet coefficients can be steered *)
(*% The map of scale j at any orientation g is a combination, with weights that depend on g only, of
    the maps at Nj equispaced orientations in [0, pi). *)

Lemma steer_cis N n g : 1 <= N -> Z.abs n < N -> Z.even (n - (N - 1)) = true ->
  cis (IZR n * g) = csumZ 0 N (fun k => Cmult (RtoC (steer_weight N (g - IZR k * PI / IZR N))) (cis (IZR n * (IZR k * PI / IZR N)))).
Proof.
  intros HN Hn He. rewrite csumZ_pair by lia. unfold cis. cbn [fst snd Cmult RtoC].
  assert (Hsin : forall x, cos (- (PI / 2) + x) = sin x).
  { intros x. rewrite <- cos_shift, <- (cos_neg (PI / 2 - x)). f_equal. ring. }
  apply injective_projections; cbn [fst snd].
  - rewrite (sumZ_ext 0 N _ (fun k => steer_weight N (g - IZR k * PI / IZR N) * cos (0 + IZR n * (IZR k * PI / IZR N)))%R).
    + rewrite (steer_trig N n g HN Hn He 0). now rewrite Rplus_0_l.
    + intros k Hk. rewrite Rplus_0_l. ring.
  - rewrite (sumZ_ext 0 N _ (fun k => steer_weight N (g - IZR k * PI / IZR N) * cos (- (PI / 2) + IZR n * (IZR k * PI / IZR N)))%R).
    + rewrite (steer_trig N n g HN Hn He (- (PI / 2))). symmetry. apply Hsin.
    + intros k Hk. rewrite Hsin. ring.
Qed.

(*@ C59_steering *)
Lemma steering : forall b O f flm L N lam J_min J spin spin0 s nside reality mr psi phi w sc W S,
  1 <= L -> 1 <= N <= L -> (1 < lam)%R -> j_max L lam = Ok J -> exact_lib b O L J_min lam spin s nside reality ->
  is_harmonic L spin reality flm -> b_inv (lib_of b O) flm L spin s nside reality = Ok f ->
  analysed b O f L N J_min lam spin spin0 s nside reality mr psi phi w sc ->
  measured (lib_of b O) L N J_min J lam spin s nside reality mr w sc W S ->
  forall j Lj Nj L0j g l m, J_min <= j <= J -> LN_j L j N lam mr = Ok (Lj, Nj, L0j) ->
  oriented Lj Nj (W j) g l m
  = csumZ 0 Nj (fun k => Cmult (RtoC (steer_weight Nj (g - IZR k * PI / IZR Nj)))
                               (oriented Lj Nj (W j) (IZR k * PI / IZR Nj) l m)).
Proof.
  intros b O f flm L N lam J_min J spin spin0 s nside reality mr psi phi w sc W S HL HN Hl EJ HX Hh Ef A M j x1 x2 x3 g l m Hj E.
  pose proof (an_filters _ _ _ _ _ _ _ _ _ _ _ _ _ _ _ _ _ A) as HI.
  pose proof (filt_J L N J_min J spin spin0 lam psi phi HL ltac:(lia) Hl HI EJ) as HF. pose proof (f_range _ _ _ _ _ _ _ _ HF).
  destruct (localised b O f flm L N lam J_min J spin spin0 s nside reality mr psi phi w sc W S HL HN Hl EJ HX Hh Ef A M) as (P & _).
  specialize (P j x1 x2 x3). pose proof E as E'. rewrite LN_j_ok in E' by lra. apply Ok_inj in E'. injection E' as <- <- <-.
  destruct (sizes L N J_min J spin lam mr psi phi HL HN Hl HF j ltac:(lia)) as (Z1 & Z2 & Z3 & Z4).
  destruct (Nj_facts L j N lam mr HL ltac:(lra) ltac:(lia)) as (_ & _ & _ & Np).
  set (n0 := Nj_of L j N lam mr) in *. unfold oriented.
  rewrite (csumZ_ext 0 n0 _ (fun k => csumZ (- n0 + 1) n0 (fun n => Cmult (Cmult (RtoC (steer_weight n0 (g - IZR k * PI / IZR n0)))
     (cis (IZR n * (IZR k * PI / IZR n0)))) (get3 (W j) (n0 - 1 + n) l (Lj_of L j lam mr - 1 + m))))).
  2:{ intros k Hk. rewrite <- csumZ_mul. apply csumZ_ext. intros. ring. }
  rewrite csumZ_swap. apply csumZ_ext. intros n Hn. rewrite csumZ_mulr.
  destruct (Ceq0_dec (get3 (W j) (n0 - 1 + n) l (Lj_of L j lam mr - 1 + m))) as [->|Hne]; [ring|].
  f_equal. apply steer_cis; try lia.
  destruct (P n l m Hj E Hne) as (_ & _ & _ & _ & _ & _ & Ev & _).
  apply even_mod' in Ev. apply even_mod. Z.div_mod_to_equations; lia.
Qed.

(*@E C59_example *)
Lemma ex_c59 : exists psi phi f w sc W S j a b Lj Nj L0j, exact_lib Base demo 5 1 2 0 MW None true /\ is_harmonic 5 0 true (demo_flm 5) /\
  b_inv demo (demo_flm 5) 5 0 MW None true = Ok f /\
  analysed Base demo f 5 3 1 2 0 0 MW None true true psi phi w sc /\
  measured demo 5 3 1 3 2 0 MW None true true w sc W S /\
  1 <= j <= 3 /\ get3 (W j) a 4 b <> RtoC 0 /\ LN_j 5 j 3 2 true = Ok (Lj, Nj, L0j).
Proof.
  destruct ex_c57 as (psi & phi & f & w & sc & W & S & j & a & b & H1 & H2 & H3 & H4 & H5 & H6 & H7).
  destruct (proj2 (proj2 H5) j H6) as (Lj & Nj & L0j & y & E & _).
  exists psi, phi, f, w, sc, W, S, j, a, b, Lj, Nj, L0j. do 5 (split; [assumption|]). split; [lia|]. split; assumption.
Qed.
