(** Statements and proofs for PropertiesTransforms.v *)

From Coq Require Import ZArith Reals List Bool Lia Lra FunctionalExtensionality.
From Coquelicot Require Import Rcomplements Complex.
From Verif Require Import Py PyFacts ModelSamples SamplesFacts ModelFilters ModelTransforms Spec SpecTransforms
  FiltersFacts AxisymFacts DirectionFacts DirFilterFacts FiltersProps TransformsFacts BackendFacts LoopFacts
  ReconFacts RoundFacts Demo.
Import ListNotations.
Open Scope Z_scope.

(*T Properties of the transforms *)
(*! From Coq Require Import ZArith Reals List Bool. *)
(*! From Coquelicot Require Import Complex. *)
(*! From Verif Require Import Py ModelSamples ModelFilters ModelTransforms Spec SpecTransforms Demo. *)

(** for the examples: solve a conjunction of facts about [demo] *)
Ltac demo_step :=
  solve [ assumption | reflexivity | exact I | discriminate | lia | lra | exact J5 | exact one5
        | apply demo_fwd_shapes | apply demo_inv_shapes | apply demo_fwd_coefs | apply demo_linear
        | apply demo_reads | apply demo_real | exact (demo_one_fwd 0 MW None true) | apply demo_agrees_j | apply demo_agrees_p
        | apply demo_agrees_t | apply demo_agrees_c | apply (demo_flm_ok 5 true) | apply (demo_flm_ok 5 false)
        | apply demo_flm_ne; lia | left; reflexivity | right; left; assumption | left; auto
        | apply demo_exact_b; left; reflexivity | apply demo_exact_j; left; reflexivity
        | apply demo_exact_p; left; reflexivity | apply demo_exact_t; left; reflexivity
        | apply demo_exact_c; left; auto | apply demo_one_inverse; left; reflexivity
        | apply (gen_full_ok _ _ _ _ _ _ _ _ _ 3); solve [exact J5 | lra | lia]
        | apply (gen_wigner_ok _ _ _ _ _ _ _ _ 3); solve [exact J5 | lra | lia] ].
Ltac demo_all := repeat (split; [demo_step|]); demo_step.

Lemma zero_harmonic L spin reality : 1 <= L -> is_harmonic L spin reality (mk2 L (2 * L - 1) (fun _ _ => RtoC 0)).
Proof.
  intros HL. assert (Z0 : forall i j, get2 (mk2 L (2 * L - 1) (fun _ _ => RtoC 0)) i j = RtoC 0).
  { intros. simpl. destruct (_ && _); reflexivity. }
  split.
  - repeat split; try (exfalso; match goal with H : get2 _ _ _ <> _ |- _ => apply H; apply Z0 end).
  - intros _ l m. rewrite !Z0, Cconj_0. ring.
Qed.
Lemma s2_known L s nside sh : s2_f_shape L s nside = Ok sh -> sampling_ok s nside.
Proof. destruct s; simpl; auto; destruct nside; discriminate || congruence. Qed.
Lemma inverts_known L spin reality s nside inv fwd : 1 <= L ->
  inverts (is_harmonic L spin reality) (s2_f_shape L s nside) inv fwd -> sampling_ok s nside.
Proof.
  intros HL H. destruct (H _ (zero_harmonic L spin reality HL)) as (f & _ & E & _). eapply s2_known; eauto.
Qed.
Lemma known_some s nside b : sampling_ok s nside -> sampling_ok s (Some b).
Proof. destruct s; simpl; auto. intros _ H. discriminate. Qed.

Lemma sz_eq L N lam mr sz : (0 < lam)%R -> (forall j, LN_j L j N lam mr = Ok (sz j)) -> sz = szf L N lam mr.
Proof.
  intros Hl H. apply functional_extensionality. intros j. specialize (H j). rewrite LN_j_ok in H by assumption.
  apply Ok_inj in H. now rewrite <- H.
Qed.
Lemma Ls_eq L J_min lam mr Ls : (0 < lam)%R -> scal_bandlimit L J_min lam mr = Ok Ls -> Ls = Ls_of L J_min lam mr.
Proof. intros Hl H. rewrite scal_bandlimit_ok in H by assumption. apply Ok_inj in H. congruence. Qed.

Lemma sh2 (a : arr2 C) n m : shape2 a = [n; m] -> rows a = n /\ cols a = m.
Proof. unfold shape2. intros [= -> ->]. auto. Qed.
Lemma sh3 (a : arr3 C) n m p : shape3 a = [n; m; p] -> dim0 a = n /\ dim1 a = m /\ dim2 a = p.
Proof. unfold shape3. intros [= -> -> ->]. auto. Qed.
Lemma harm_sh L spin a : harmonic L spin a -> flm_sh L a.
Proof. intros (H1 & H2 & _). split; auto. Qed.
Lemma wig_sh L N L0 a : wigner L N L0 a -> flmn_sh N L a.
Proof. intros (H1 & H2 & H3 & _). repeat split; auto. Qed.

(** facts of the filters in a form convenient below *)
Ltac filt_facts HF :=
  pose proof (f_J _ _ _ _ _ _ _ _ HF) as EJ0;
  pose proof (f_range _ _ _ _ _ _ _ _ HF) as HJr;
  pose proof (f_psi _ _ _ _ _ _ _ _ HF) as Hpsi;
  pose proof (f_phi _ _ _ _ _ _ _ _ HF) as Hphi.

(*% ** What the base transforms compute, in harmonic space *)

(*@ C22_analysis_coefficients *)
Lemma analysis_coefs : forall O f L N lam J_min J spin s nside reality mr scattering psi phi sz Ls,
  1 <= L -> 1 <= N <= L -> (1 < lam)%R ->
  filters_directional_vectorised L N J_min lam spin 0 = Ok (psi, phi) -> j_max L lam = Ok J ->
  sampling_known s nside -> fwd_shapes_b O spin s nside reality ->
  (forall j, LN_j L j N lam mr = Ok (sz j)) -> scal_bandlimit L J_min lam mr = Ok Ls ->
  analysis O f L N J_min lam spin 0 s nside reality mr scattering
  = (flm <- b_fwd O f L spin s nside reality ;;
     w <- mapM (fun j => let '(Lj, Nj, L0j) := sz j in
                 b_winv O (wcoefs L psi flm sz j) Lj Nj L0j s reality nside) (zrange J_min (J + 1)) ;;
     sc <- b_inv O (scaling_coefs L phi flm Ls) Ls spin s nside reality ;;
     Ok (if scattering then map nd_abs w else w, sc)).
Proof.
  intros O f L N lam J_min J spin s nside reality mr scattering psi phi sz Ls HL HN Hlam E EJ Hs (Hf & _) Hsz HLs.
  pose proof (filt_J L N J_min J spin 0 lam psi phi HL ltac:(lia) Hlam (or_intror (or_introl E)) EJ) as HF.
  filt_facts HF. rewrite (sz_eq L N lam mr sz ltac:(lra) Hsz), (Ls_eq L J_min lam mr Ls ltac:(lra) HLs).
  rewrite (analysis_ok L N J_min J lam mr HL HN Hlam EJ ltac:(lia) O f spin s nside reality scattering psi phi);
    auto; try lia.
  - eapply known_some; eauto.
  - intros flm Ef. apply sh2. eauto.
Qed.

(*@ C22_synthesis_coefficients *)
Lemma synthesis_coefs : forall O f_wav f_scal L N lam J_min J spin s nside reality mr psi phi sz Ls,
  1 <= L -> 1 <= N <= L -> (1 < lam)%R ->
  filters_directional_vectorised L N J_min lam spin 0 = Ok (psi, phi) -> j_max L lam = Ok J ->
  fwd_shapes_b O spin s nside reality ->
  (forall j, LN_j L j N lam mr = Ok (sz j)) -> scal_bandlimit L J_min lam mr = Ok Ls ->
  synthesis O f_wav f_scal L N J_min lam spin 0 s nside reality mr
  = (_ <- wavelet_shape_check f_wav f_scal L N J_min lam s nside mr ;;
     S <- b_fwd O f_scal Ls spin s nside reality ;;
     Ws <- mapM (fun j => let '(Lj, Nj, L0j) := sz j in
                  fj <- lrd f_wav (j - J_min) ;; b_wfwd O fj Lj Nj L0j s reality nside) (zrange J_min (J + 1)) ;;
     b_inv O (synthesised L J_min J psi phi sz
                (fun j => nth (Z.to_nat (j - J_min)) Ws (mk3 0 0 0 (fun _ _ _ => RtoC 0))) Ls S)
       L spin s nside reality).
Proof.
  intros O f_wav f_scal L N lam J_min J spin s nside reality mr psi phi sz Ls HL HN Hlam E EJ (Hf & Hw) Hsz HLs.
  pose proof (filt_J L N J_min J spin 0 lam psi phi HL ltac:(lia) Hlam (or_intror (or_introl E)) EJ) as HF.
  filt_facts HF. rewrite (sz_eq L N lam mr sz ltac:(lra) Hsz), (Ls_eq L J_min lam mr Ls ltac:(lra) HLs).
  rewrite (synthesis_ok L N J_min J lam mr HL HN Hlam EJ ltac:(lia) O f_wav f_scal spin s nside reality psi phi);
    auto; try lia.
  - intros S ES. apply sh2. eauto.
  - intros j fj T Hj _ ET. apply sh3. eauto.
Qed.

(*@ C22_reconstruction *)
Lemma reconstruction : forall L N lam J_min J spin spin0 mr psi phi flm sz Ls,
  1 <= L -> 1 <= N <= L -> (1 < lam)%R ->
  is_filters L N J_min lam spin spin0 psi phi -> j_max L lam = Ok J ->
  (forall j, LN_j L j N lam mr = Ok (sz j)) -> scal_bandlimit L J_min lam mr = Ok Ls ->
  harmonic L spin flm ->
  synthesised L J_min J psi phi sz (wcoefs L psi flm sz) Ls (scaling_coefs L phi flm Ls)
  = scale_l (dir_total L psi phi J_min J) flm /\
  ((forall l, Z.abs spin <= l < L -> dir_total L psi phi J_min J l = 1%R) ->
   synthesised L J_min J psi phi sz (wcoefs L psi flm sz) Ls (scaling_coefs L phi flm Ls) = flm).
Proof.
  intros L N lam J_min J spin spin0 mr psi phi flm sz Ls HL HN Hlam E EJ Hsz HLs Hh.
  pose proof (filt_J L N J_min J spin spin0 lam psi phi HL ltac:(lia) Hlam E EJ) as HF.
  rewrite (sz_eq L N lam mr sz ltac:(lra) Hsz), (Ls_eq L J_min lam mr Ls ltac:(lra) HLs).
  assert (R : synthesised L J_min J psi phi (szf L N lam mr) (wcoefs L psi flm (szf L N lam mr)) (Ls_of L J_min lam mr)
    (scaling_coefs L phi flm (Ls_of L J_min lam mr)) = scale_l (dir_total L psi phi J_min J) flm).
  { rewrite <- (recon_f L N J_min J spin lam mr psi phi HL HN Hlam HF flm Hh). unfold syn, synthesised.
    apply mk2_ext. intros l b Hl Hb. cbv zeta. f_equal. apply csumZ_ext. intros j Hj. unfold szf at 1 3.
    f_equal. rewrite Tnth_map by lia. reflexivity. }
  split; [exact R|]. intros Ht. rewrite R. apply (scale_1 L spin); auto.
Qed.

(*@E C22_example *)
Lemma ex_c22 : exists psi phi sz Ls,
  filters_directional_vectorised 5 3 1 2 0 0 = Ok (psi, phi) /\ j_max 5 2 = Ok 3 /\
  (forall j, LN_j 5 j 3 2 true = Ok (sz j)) /\ scal_bandlimit 5 1 2 true = Ok Ls /\
  sampling_known MW None /\ fwd_shapes_b demo 0 MW None true /\ harmonic 5 0 (demo_flm 5) /\
  get2 (demo_flm 5) 2 (5 - 1 + 1) <> RtoC 0 /\
  (forall l, 0 <= l < 5 -> dir_total 5 psi phi 1 3 l = 1%R).
Proof.
  destruct (v5 3 1 ltac:(lia) ltac:(lia)) as (psi & phi & E & T & _). destruct (s5 3 1 true) as (sz & Ls & E1 & E2).
  exists psi, phi, sz, Ls. demo_all.
Qed.

(*% ** C07: analysis output is accepted by synthesis *)

Lemma check_intro L N J_min J lam s nside mr w sc : 1 <= L -> (1 < lam)%R -> sampling_ok s nside ->
  j_max L lam = Ok J -> 0 <= J_min <= J -> length w = Z.to_nat (J + 1 - J_min) ->
  s2_f_shape (Ls_of L J_min lam mr) s nside = Ok (nshape sc) ->
  (forall j y, J_min <= j <= J -> nth_error w (Z.to_nat (j - J_min)) = Some y ->
     so3_f_shape (Lj_of L j lam mr) (Nj_of L j N lam mr) s nside = Ok (nshape y)) ->
  wavelet_shape_check w sc L N J_min lam s nside mr = Ok tt.
Proof.
  intros HL Hlam Hs EJ HJ Hlen Hsc Hw.
  destruct (shape_check_spec w sc L N J_min lam s nside mr J HL Hlam Hs EJ HJ) as [H _].
  apply H. split; [unfold n_wav_scales; rewrite EJ; cbn [bind]; f_equal; lia|].
  rewrite f_scal_ok by lra. split; [exact Hsc|]. intros i a Ha. rewrite f_wav_j_ok by lra.
  assert (i < length w)%nat by (apply nth_error_Some; congruence).
  apply Hw; [lia|]. now replace (Z.to_nat (J_min + Z.of_nat i - J_min)) with i by lia.
Qed.

(*@ C07_vectorised_analysis_accepted *)
Lemma accepted_vec : forall O f L N lam J_min J spin s nside reality mr scattering w sc,
  1 <= L -> 1 <= N <= L -> (1 < lam)%R -> j_max L lam = Ok J -> 0 <= J_min < J ->
  sampling_known s nside -> fwd_shapes_b O spin s nside reality -> inv_shapes_b O spin s nside reality ->
  analysis O f L N J_min lam spin 0 s nside reality mr scattering = Ok (w, sc) ->
  wavelet_shape_check w sc L N J_min lam s nside mr = Ok tt.
Proof.
  intros O f L N lam J_min J spin s nside reality mr scattering w sc HL HN Hlam EJ HJ Hs (Hf & _) (I1 & I2) H.
  destruct (valid_range L N lam J J_min spin 0 HL ltac:(lia) Hlam EJ HJ) as (_ & _ & _ & _ & (psi & phi & E & _) & _).
  pose proof (filt_J L N J_min J spin 0 lam psi phi HL ltac:(lia) Hlam (or_intror (or_introl E)) EJ) as HF.
  filt_facts HF.
  rewrite (analysis_ok L N J_min J lam mr HL HN Hlam EJ ltac:(lia) O f spin s nside reality scattering psi phi)
    in H; auto; try lia.
  2:{ eapply known_some; eauto. }
  2:{ intros flm Ef. apply sh2. eauto. }
  apply bind_inv in H as (flm & _ & H). apply bind_inv in H as (w0 & Ew & H).
  apply bind_inv in H as (sc0 & Es & H). apply Ok_inj in H. apply pair_equal_spec in H as [<- <-].
  destruct (mapM_inv _ _ _ Ew) as [Hl Hn]. rewrite zrange_length in Hl.
  apply (check_intro L N J_min J); auto; try lia.
  - destruct scattering; [rewrite map_length|]; lia.
  - eauto.
  - intros j y Hj Hy.
    destruct (Hn (Z.to_nat (j - J_min)) j) as (y0 & Ey & En).
    { rewrite nth_error_zrange by lia. f_equal. lia. }
    apply I2 in Ey. destruct scattering.
    + rewrite nth_error_map, En in Hy. injection Hy as <-. exact Ey.
    + rewrite En in Hy. injection Hy as <-. exact Ey.
Qed.

(*@ C07_looped_analysis_accepted *)
Lemma accepted_loop : forall O f L N lam J_min J spin spin0 s nside reality mr w sc,
  1 <= L -> 1 <= N -> (1 < lam)%R -> j_max L lam = Ok J -> 0 <= J_min < J ->
  sampling_known s nside -> fwd_shapes_b O spin s nside reality -> inv_shapes_b O spin s nside reality ->
  analysis_looped O f L N J_min lam spin spin0 s nside reality mr = Ok (w, sc) ->
  wavelet_shape_check w sc L N J_min lam s nside mr = Ok tt.
Proof.
  intros O f L N lam J_min J spin spin0 s nside reality mr w sc HL HN Hlam EJ HJ Hs (Hf & _) (I1 & I2) H.
  destruct (valid_range L N lam J J_min spin spin0 HL ltac:(lia) Hlam EJ HJ) as (_ & _ & _ & (psi & phi & E & _) & _).
  pose proof (filt_J L N J_min J spin spin0 lam psi phi HL ltac:(lia) Hlam (or_introl E) EJ) as HF.
  filt_facts HF.
  rewrite (analysis_looped_ok L N J_min J lam mr HL HN Hlam EJ ltac:(lia) O f spin spin0 s nside reality psi phi)
    in H; auto; try lia.
  2:{ intros flm Ef. apply sh2. eauto. }
  apply bind_inv in H as (flm & _ & H). apply bind_inv in H as (w0 & Ew & H).
  apply bind_inv in H as (sc0 & Es & H). apply Ok_inj in H. apply pair_equal_spec in H as [<- <-].
  destruct (mapM_inv _ _ _ Ew) as [Hl Hn]. rewrite zrange_length in Hl.
  apply (check_intro L N J_min J); auto; try lia.
  - eauto.
  - intros j y Hj Hy.
    destruct (Hn (Z.to_nat (j - J_min)) j) as (y0 & Ey & En).
    { rewrite nth_error_zrange by lia. f_equal. lia. }
    apply I2 in Ey. rewrite En in Hy. injection Hy as <-. exact Ey.
Qed.

(*% ** C23, C24: round trips.  f is the band-limited field with coefficients flm. *)

(*@ C23_round_trip_vectorised *)
Lemma rt_vec : forall O f flm L N lam J_min J spin s nside reality mr psi phi,
  1 <= L -> 1 <= N <= L -> (1 < lam)%R ->
  filters_directional_vectorised L N J_min lam spin 0 = Ok (psi, phi) -> j_max L lam = Ok J ->
  exact_b O spin s nside reality ->
  is_harmonic L spin reality flm -> b_inv O flm L spin s nside reality = Ok f ->
  exists w sc,
    analysis O f L N J_min lam spin 0 s nside reality mr false = Ok (w, sc) /\
    synthesis O w sc L N J_min lam spin 0 s nside reality mr
    = b_inv O (scale_l (dir_total L psi phi J_min J) flm) L spin s nside reality /\
    ((forall l, Z.abs spin <= l < L -> dir_total L psi phi J_min J l = 1%R) ->
     synthesis O w sc L N J_min lam spin 0 s nside reality mr = Ok f).
Proof.
  intros O f flm L N lam J_min J spin s nside reality mr psi phi HL HN Hlam E EJ (X1 & X2) Hh Ef.
  pose proof (filt_J L N J_min J spin 0 lam psi phi HL ltac:(lia) Hlam (or_intror (or_introl E)) EJ) as HF.
  filt_facts HF. pose proof (Ls_range L J_min lam mr HL ltac:(lra)).
  pose proof (inverts_known _ _ _ _ _ _ _ HL (X1 L HL)) as Hs.
  assert (Eb : b_fwd O f L spin s nside reality = Ok flm).
  { destruct (X1 L HL flm Hh) as (f' & E1 & _ & E2). congruence. }
  assert (Xw : forall j, J_min <= j <= J -> exists y,
     b_winv O (wc L N lam mr psi flm j) (Lj_of L j lam mr) (Nj_of L j N lam mr) (L0_of j lam mr) s reality nside = Ok y /\
     so3_f_shape (Lj_of L j lam mr) (Nj_of L j N lam mr) s nside = Ok (nshape y) /\
     b_wfwd O y (Lj_of L j lam mr) (Nj_of L j N lam mr) (L0_of j lam mr) s reality nside = Ok (wc L N lam mr psi flm j)).
  { intros j Hj. destruct (sizes L N J_min J spin lam mr psi phi HL HN Hlam HF j ltac:(lia)) as (Z1 & Z2 & Z3 & Z4).
    apply (X2 (Lj_of L j lam mr) (Nj_of L j N lam mr) (L0_of j lam mr)); try lia.
    apply (wc_is L N J_min J spin lam mr psi phi); auto. lia. }
  destruct (X1 (Ls_of L J_min lam mr) ltac:(lia) _ (sc_is L N J_min J spin lam mr psi phi HL HN Hlam HF flm reality Hh))
    as (sc0 & S1 & S2 & S3).
  destruct (round_gen L N J_min J spin lam mr psi phi HL HN Hlam HF flm
    (fun j a => b_winv O a (Lj_of L j lam mr) (Nj_of L j N lam mr) (L0_of j lam mr) s reality nside)
    (fun j y => b_wfwd O y (Lj_of L j lam mr) (Nj_of L j N lam mr) (L0_of j lam mr) s reality nside)
    (fun a => b_inv O a (Ls_of L J_min lam mr) spin s nside reality)
    (fun y => b_fwd O y (Ls_of L J_min lam mr) spin s nside reality))
    as (w & sc & Ew & Es & Hl & Hw & Esc & Ts & ETs & Ts_eq & Rec).
  { apply Hh. }
  { intros j Hj. destruct (Xw j Hj) as (y & A & _ & B). eauto. }
  { eauto. }
  assert (sc0 = sc) as -> by congruence.
  exists w, sc. split.
  - rewrite (analysis_ok L N J_min J lam mr HL HN Hlam EJ ltac:(lia) O f spin s nside reality false psi phi);
      auto; try lia.
    + rewrite Eb. cbn [bind]. rewrite Ew. cbn [bind]. rewrite Es. reflexivity.
    + eapply known_some; eauto.
    + intros flm' Ef'. rewrite Eb in Ef'. apply Ok_inj in Ef'. subst flm'. eapply harm_sh, Hh.
  - assert (Sy : synthesis O w sc L N J_min lam spin 0 s nside reality mr
      = b_inv O (scale_l (dir_total L psi phi J_min J) flm) L spin s nside reality).
    { rewrite (synthesis_ok L N J_min J lam mr HL HN Hlam EJ ltac:(lia) O w sc spin s nside reality psi phi);
        auto; try lia.
      - rewrite (check_intro L N J_min J lam s nside mr w sc); auto; try lia.
        + cbn [bind]. rewrite Esc. cbn [bind]. rewrite ETs. cbn [bind]. now rewrite Rec.
        + intros j y Hj Hy. destruct (Xw j Hj) as (y' & A1 & A2 & _).
          destruct (Hw j Hj) as (y'' & B1 & _ & _ & B2).
          assert (y = y') as -> by congruence. exact A2.
      - intros S ES. rewrite Esc in ES. apply Ok_inj in ES. subst S. split; reflexivity.
      - intros j fj T Hj Efj ET. destruct (Hw j Hj) as (y & _ & B1 & B2 & _).
        assert (fj = y) as -> by congruence. rewrite B1 in ET. apply Ok_inj in ET. subst T. apply wc_shape. }
    split; [exact Sy|]. intros Ht. rewrite Sy, (scale_1 L spin); auto. apply Hh.
Qed.

(*@ C23_round_trip_looped *)
Lemma rt_loop : forall O f flm L N lam J_min J spin spin0 s nside (reality : bool) mr psi phi,
  1 <= L -> 1 <= N <= L -> (1 < lam)%R ->
  filters_directional L N J_min lam spin spin0 = Ok (psi, phi) -> j_max L lam = Ok J ->
  exact_b O spin s nside reality ->
  (reality = true -> spin = 0 /\ reads_nonnegative O s nside) ->
  is_harmonic L spin reality flm -> b_inv O flm L spin s nside reality = Ok f ->
  exists w sc,
    analysis_looped O f L N J_min lam spin spin0 s nside reality mr = Ok (w, sc) /\
    synthesis_looped O w sc L N J_min lam spin spin0 s nside reality mr
    = b_inv O (scale_l (dir_total L psi phi J_min J) flm) L spin s nside reality /\
    ((forall l, Z.abs spin <= l < L -> dir_total L psi phi J_min J l = 1%R) ->
     synthesis_looped O w sc L N J_min lam spin spin0 s nside reality mr = Ok f).
Proof.
  intros O f flm L N lam J_min J spin spin0 s nside reality mr psi phi HL HN Hlam E EJ (X1 & X2) Hre Hh Ef.
  pose proof (filt_J L N J_min J spin spin0 lam psi phi HL ltac:(lia) Hlam (or_introl E) EJ) as HF.
  filt_facts HF. pose proof (Ls_range L J_min lam mr HL ltac:(lra)).
  pose proof (inverts_known _ _ _ _ _ _ _ HL (X1 L HL)) as Hs.
  assert (Eb : b_fwd O f L spin s nside reality = Ok flm).
  { destruct (X1 L HL flm Hh) as (f' & E1 & _ & E2). congruence. }
  assert (Xw : forall j, J_min <= j <= J -> exists y,
     b_winv O (wc L N lam mr psi flm j) (Lj_of L j lam mr) (Nj_of L j N lam mr) (L0_of j lam mr) s reality nside = Ok y /\
     so3_f_shape (Lj_of L j lam mr) (Nj_of L j N lam mr) s nside = Ok (nshape y) /\
     b_wfwd O y (Lj_of L j lam mr) (Nj_of L j N lam mr) (L0_of j lam mr) s reality nside = Ok (wc L N lam mr psi flm j)).
  { intros j Hj. destruct (sizes L N J_min J spin lam mr psi phi HL HN Hlam HF j ltac:(lia)) as (Z1 & Z2 & Z3 & Z4).
    apply (X2 (Lj_of L j lam mr) (Nj_of L j N lam mr) (L0_of j lam mr)); try lia.
    apply (wc_is L N J_min J spin lam mr psi phi); auto. lia. }
  destruct (X1 (Ls_of L J_min lam mr) ltac:(lia) _ (sc_is L N J_min J spin lam mr psi phi HL HN Hlam HF flm reality Hh))
    as (sc0 & S1 & S2 & S3).
  destruct (round_gen L N J_min J spin lam mr psi phi HL HN Hlam HF flm
    (fun j a => b_winv O a (Lj_of L j lam mr) (Nj_of L j N lam mr) (L0_of j lam mr) s reality nside)
    (fun j y => b_wfwd O y (Lj_of L j lam mr) (Nj_of L j N lam mr) (L0_of j lam mr) s reality nside)
    (fun a => b_inv O a (Ls_of L J_min lam mr) spin s nside reality)
    (fun y => b_fwd O y (Ls_of L J_min lam mr) spin s nside reality))
    as (w & sc & Ew & Es & Hl & Hw & Esc & Ts & ETs & Ts_eq & Rec).
  { apply Hh. }
  { intros j Hj. destruct (Xw j Hj) as (y & A & _ & B). eauto. }
  { eauto. }
  assert (sc0 = sc) as -> by congruence.
  exists w, sc. split.
  - rewrite (analysis_looped_ok L N J_min J lam mr HL (proj1 HN) Hlam EJ ltac:(lia) O f spin spin0 s nside reality psi phi);
      auto; try lia.
    + rewrite Eb. cbn [bind].
      rewrite (mapM_ext _ (fun j => b_winv O (wc L N lam mr psi flm j) (Lj_of L j lam mr) (Nj_of L j N lam mr)
         (L0_of j lam mr) s reality nside)).
      * rewrite Ew. cbn [bind].
        replace (sloop L spin phi flm reality (Ls_of L J_min lam mr))
          with (scaling_coefs L phi flm (Ls_of L J_min lam mr)).
        { rewrite Es. reflexivity. }
        symmetry. rewrite <- (sloop_false L J_min spin lam mr phi HL Hlam) by apply Hh.
        destruct reality; [|reflexivity]. apply sloop_true. now apply Hh.
      * intros j Hj. apply In_zrange in Hj. f_equal.
        rewrite <- (wloop_false L N J_min J spin lam mr psi phi HL (proj1 HN) Hlam HF flm j) by (apply Hh || lia).
        destruct reality; [|reflexivity].
        apply (wloop_true L N J_min J spin lam mr psi phi HL (proj1 HN) Hlam HF); [lia|]. now apply Hh.
    + intros flm' Ef'. rewrite Eb in Ef'. apply Ok_inj in Ef'. subst flm'. eapply harm_sh, Hh.
  - assert (Sy : synthesis_looped O w sc L N J_min lam spin spin0 s nside reality mr
      = b_inv O (scale_l (dir_total L psi phi J_min J) flm) L spin s nside reality).
    { rewrite (synthesis_looped_ok L N J_min J lam mr HL (proj1 HN) Hlam EJ ltac:(lia) O w sc spin spin0 s nside reality psi phi);
        auto; try lia.
      - rewrite (check_intro L N J_min J lam s nside mr w sc); auto; try lia.
        + cbn [bind]. rewrite Esc. cbn [bind]. rewrite ETs. cbn [bind]. rewrite <- Rec.
          rewrite <- (synl_false L N J_min J spin lam mr psi phi HL (proj1 HN) Hlam HF).
          * destruct reality; [|reflexivity]. destruct (Hre eq_refl) as [-> Hr].
            apply Hr; try reflexivity. intros l m Hl' Hm.
            now apply synl_true_nonneg.
          * apply (sc_is L N J_min J spin lam mr psi phi HL HN Hlam HF flm reality Hh).
          * intros j Hj. rewrite Ts_eq, Tnth_map by lia.
            apply (wc_is L N J_min J spin lam mr psi phi HL HN Hlam HF flm j reality); [lia|exact Hh].
        + intros j y Hj Hy. destruct (Xw j Hj) as (y' & A1 & A2 & _).
          destruct (Hw j Hj) as (y'' & B1 & _ & _ & B2).
          assert (y = y') as -> by congruence. exact A2.
      - intros S ES. rewrite Esc in ES. apply Ok_inj in ES. subst S. split; reflexivity.
      - intros j fj T Hj Efj ET. destruct (Hw j Hj) as (y & _ & B1 & B2 & _).
        assert (fj = y) as -> by congruence. rewrite B1 in ET. apply Ok_inj in ET. subst T. apply wc_shape. }
    split; [exact Sy|]. intros Ht. rewrite Sy, (scale_1 L spin); auto. apply Hh.
Qed.

Lemma harmonic_1 a spin : harmonic 1 spin a -> one_pixel a = constant_field a.
Proof.
  intros (H1 & H2 & _). unfold one_pixel, constant_field, nd_of2, map2. cbn [rows cols get2]. rewrite H1, H2.
  cbn [rows cols mk2]. f_equal. apply functional_extensionality. intros [|i [|j [|k ix]]]; auto.
  destruct ((i =? 0) && (j =? 0)) eqn:E0.
  - apply andb_true_iff in E0 as [Ei Ej]. apply Z.eqb_eq in Ei, Ej. subst. now rewrite get2_mk by lia.
  - cbn [get2 mk2]. replace (inb 1 i && inb (2 * 1 - 1) j) with false; [reflexivity|]. unfold inb.
    symmetry. apply not_true_is_false. intros Ht. rewrite !andb_true_iff in Ht.
    apply not_true_iff_false in E0. apply E0. apply andb_true_iff. rewrite !Z.eqb_eq. lia.
Qed.
Lemma scal_edge Ls spin reality a sh inv fwd : is_harmonic Ls spin reality a ->
  inverts (is_harmonic Ls spin reality) sh inv fwd -> (Ls = 1 -> one_point spin reality fwd) ->
  exists y, (if Ls =? 1 then Ok (one_pixel a) else inv a) = Ok y /\ fwd y = Ok a.
Proof.
  intros Ha Hi H1. destruct (Z.eqb_spec Ls 1) as [->|Hn].
  - exists (one_pixel a). split; auto. rewrite (harmonic_1 a spin) by apply Ha. apply H1; auto.
  - destruct (Hi a Ha) as (y & E1 & _ & E2). eauto.
Qed.
(** the kernel lists are long enough and hold, at the index used, a kernel of the right size *)
Lemma wk_nth L N J_min J lam s nside fw re j : 1 <= L -> (1 < lam)%R -> j_max L lam = Ok J ->
  0 <= J_min < J -> J_min <= j <= J ->
  lrd (map (wkf L N lam s nside fw re) (zrange J_min J)) (j - J_min + (if j <? J then 0 else -1))
  = Ok (wkf L N lam s nside fw re j).
Proof.
  intros HL Hlam EJ HJ Hj. destruct (Z.ltb_spec j J).
  - rewrite Z.add_0_r. apply lrd_map. lia.
  - replace (j - J_min + -1) with (J - 1 - J_min) by lia. rewrite lrd_map by lia.
    assert (Lj_of L (J - 1) lam true = L) as E1 by (apply (Lj_full _ _ _ _ J); auto; lia).
    assert (Lj_of L j lam true = L) as E2 by (apply (Lj_full _ _ _ _ J); auto; lia).
    unfold wkf, Nj_of. now rewrite E1, E2.
Qed.

(*@ C23_round_trip_jax *)
Lemma rt_jax : forall O f flm L N lam J_min J spin spin0 s nside reality psi phi pa ps qa qs,
  1 <= L -> 1 <= N <= L -> (1 < lam)%R ->
  is_filters L N J_min lam spin spin0 psi phi -> j_max L lam = Ok J ->
  exact_j O spin s nside reality ->
  (scal_bandlimit L J_min lam true = Ok 1 -> one_point spin reality (fun y => j_fwd O y 1 spin nside s reality)) ->
  generate_wigner_precomputes L N J_min lam s nside false reality = Ok qa -> (pa = None \/ pa = Some qa) ->
  generate_wigner_precomputes L N J_min lam s nside true reality = Ok qs -> (ps = None \/ ps = Some qs) ->
  is_harmonic L spin reality flm -> j_inv O flm L spin nside s reality = Ok f ->
  exists w sc,
    jax_analysis O f L N J_min lam spin s nside reality (Some (psi, phi)) pa = Ok (w, sc) /\
    jax_synthesis O w sc L N J_min lam spin s nside reality (Some (psi, phi)) ps
    = j_inv O (scale_l (dir_total L psi phi J_min J) flm) L spin nside s reality /\
    ((forall l, Z.abs spin <= l < L -> dir_total L psi phi J_min J l = 1%R) ->
     jax_synthesis O w sc L N J_min lam spin s nside reality (Some (psi, phi)) ps = Ok f).
Proof.
  intros O f flm L N lam J_min J spin spin0 s nside reality psi phi pa ps qa qs HL HN Hlam E EJ (X1 & X2) X3
    Ea Hpa Eq Hps Hh Ef.
  pose proof (filt_J L N J_min J spin spin0 lam psi phi HL ltac:(lia) Hlam E EJ) as HF.
  filt_facts HF. pose proof (Ls_range L J_min lam true HL ltac:(lra)).
  assert (forall x, jax_analysis O x L N J_min lam spin s nside reality (Some (psi, phi)) pa
     = jax_analysis O x L N J_min lam spin s nside reality (Some (psi, phi)) (Some qa)) as ->.
  { intros x. destruct Hpa as [->| ->]; [|reflexivity]. unfold jax_analysis. rewrite Ea. reflexivity. }
  assert (forall x y, jax_synthesis O x y L N J_min lam spin s nside reality (Some (psi, phi)) ps
     = jax_synthesis O x y L N J_min lam spin s nside reality (Some (psi, phi)) (Some qs)) as Es.
  { intros x y. destruct Hps as [->| ->]; [|reflexivity]. unfold jax_synthesis. rewrite Eq. reflexivity. }
  rewrite (gen_wigner_ok L N J_min lam s nside false reality J) in Ea by (auto; lra || lia). apply Ok_inj in Ea.
  rewrite (gen_wigner_ok L N J_min lam s nside true reality J) in Eq by (auto; lra || lia). apply Ok_inj in Eq.
  rewrite scal_bandlimit_ok in X3 by lra.
  assert (Eb : j_fwd O f L spin nside s reality = Ok flm).
  { destruct (X1 L HL flm Hh) as (f' & E1 & _ & E2). congruence. }
  destruct (round_gen L N J_min J spin lam true psi phi HL HN Hlam HF flm
    (fun j a => j_winv O a (Lj_of L j lam true) (Nj_of L j N lam true) nside s reality
                  (rkf L N lam s nside false reality j) (L0_of j lam true))
    (fun j y => j_wfwd O y (Lj_of L j lam true) (Nj_of L j N lam true) nside s reality
                  (rkf L N lam s nside true reality j) (L0_of j lam true))
    (fun a => if Ls_of L J_min lam true =? 1 then Ok (one_pixel a)
              else j_inv O a (Ls_of L J_min lam true) spin nside s reality)
    (fun y => j_fwd O y (Ls_of L J_min lam true) spin nside s reality))
    as (w & sc & Ew & Esc & Hl & Hw & Efs & Ts & ETs & Ts_eq & Rec).
  { apply Hh. }
  { intros j Hj. destruct (sizes L N J_min J spin lam true psi phi HL HN Hlam HF j ltac:(lia)) as (Z1 & Z2 & Z3 & Z4).
    destruct (X2 (Lj_of L j lam true) (Nj_of L j N lam true) (L0_of j lam true) ltac:(lia) ltac:(lia) ltac:(lia)
      (wc L N lam true psi flm j)) as (y & A & _ & B).
    - apply (wc_is L N J_min J spin lam true psi phi); auto. lia.
    - exists y. split; assumption. }
  { apply (scal_edge _ spin reality _ (s2_f_shape (Ls_of L J_min lam true) s nside)
      (fun a => j_inv O a (Ls_of L J_min lam true) spin nside s reality)).
    - apply (sc_is L N J_min J spin lam true psi phi HL HN Hlam HF flm reality Hh).
    - apply X1. lia.
    - intros E1. rewrite E1 in *. now apply X3. }
  exists w, sc. split.
  - rewrite (jax_analysis_ok L N J_min J lam HL HN Hlam EJ ltac:(lia) O f spin s nside reality psi phi qa);
      auto; try lia.
    + rewrite Eb. cbn [bind].
      rewrite (mapM_ext _ (fun j => j_winv O (wc L N lam true psi flm j) (Lj_of L j lam true) (Nj_of L j N lam true)
        nside s reality (rkf L N lam s nside false reality j) (L0_of j lam true))).
      * rewrite Ew. cbn [bind]. rewrite Esc. reflexivity.
      * intros j Hj. apply In_zrange in Hj. rewrite <- Ea, lrd_map by lia. reflexivity.
    + intros flm' Ef'. rewrite Eb in Ef'. apply Ok_inj in Ef'. subst flm'. eapply harm_sh, Hh.
  - rewrite Es. assert (Sy : jax_synthesis O w sc L N J_min lam spin s nside reality (Some (psi, phi)) (Some qs)
      = j_inv O (scale_l (dir_total L psi phi J_min J) flm) L spin nside s reality).
    { rewrite (jax_synthesis_ok L N J_min J lam HL HN Hlam EJ ltac:(lia) O w sc spin s nside reality psi phi qs);
        auto; try lia.
      - rewrite Efs. cbn [bind]. rewrite (mapM_ext _ (fun j => fj <- lrd w (j - J_min) ;;
          j_wfwd O fj (Lj_of L j lam true) (Nj_of L j N lam true) nside s reality
            (rkf L N lam s nside true reality j) (L0_of j lam true))).
        + rewrite ETs. cbn [bind]. now rewrite Rec.
        + intros j Hj. apply In_zrange in Hj. rewrite <- Eq, lrd_map by lia. reflexivity.
      - intros S ES. rewrite Efs in ES. apply Ok_inj in ES. subst S. split; reflexivity.
      - intros j fj pj T Hj Efj Epj ET. rewrite <- Eq, lrd_map in Epj by lia. apply Ok_inj in Epj. subst pj.
        destruct (Hw j Hj) as (y & _ & B1 & B2 & _).
        assert (fj = y) as -> by congruence. rewrite B1 in ET. apply Ok_inj in ET. subst T. apply wc_shape. }
    split; [exact Sy|]. intros Ht. rewrite Sy, (scale_1 L spin); auto. apply Hh.
Qed.

(*@ C23_round_trip_precompute *)
Lemma rt_precompute : forall O f flm L N lam J_min J spin0 s nside reality psi phi pa ps,
  1 <= L -> 1 <= N <= L -> (1 < lam)%R ->
  is_filters L N J_min lam 0 spin0 psi phi -> j_max L lam = Ok J ->
  exact_p O s nside reality ->
  (scal_bandlimit L J_min lam true = Ok 1 ->
   one_point 0 reality (fun y => p_fwd O y (SKern 1 0 reality s nside true) 1 s reality 0 nside)) ->
  generate_full_precomputes L N J_min lam s nside false reality false = Ok pa ->
  generate_full_precomputes L N J_min lam s nside true reality false = Ok ps ->
  is_harmonic L 0 reality flm -> p_inv O flm (SKern L 0 reality s nside false) L s reality 0 nside = Ok f ->
  exists w sc,
    pre_analysis O f L N J_min lam 0 s nside reality (Some (psi, phi)) (Some pa) = Ok (w, sc) /\
    pre_synthesis O w sc L N J_min lam 0 s nside reality (Some (psi, phi)) (Some ps)
    = p_inv O (scale_l (dir_total L psi phi J_min J) flm) (SKern L 0 reality s nside false) L s reality 0 nside /\
    ((forall l, 0 <= l < L -> dir_total L psi phi J_min J l = 1%R) ->
     pre_synthesis O w sc L N J_min lam 0 s nside reality (Some (psi, phi)) (Some ps) = Ok f).
Proof.
  intros O f flm L N lam J_min J spin0 s nside reality psi phi pa ps HL HN Hlam E EJ (X1 & X2) X3 Ea Eq Hh Ef.
  pose proof (filt_J L N J_min J 0 spin0 lam psi phi HL ltac:(lia) Hlam E EJ) as HF.
  filt_facts HF. pose proof (Ls_range L J_min lam true HL ltac:(lra)).
  rewrite (gen_full_ok L N J_min lam s nside false reality false J) in Ea by (auto; lra || lia).
  rewrite (gen_full_ok L N J_min lam s nside true reality false J) in Eq by (auto; lra || lia).
  cbn [negb] in Ea, Eq. apply Ok_inj in Ea. apply Ok_inj in Eq. subst pa ps.
  rewrite scal_bandlimit_ok in X3 by lra.
  assert (Eb : p_fwd O f (SKern L 0 reality s nside true) L s reality 0 nside = Ok flm).
  { destruct (X1 L HL flm Hh) as (f' & E1 & _ & E2). congruence. }
  destruct (round_gen L N J_min J 0 lam true psi phi HL HN Hlam HF flm
    (fun j a => p_winv O a (wkf L N lam s nside false reality j) (Lj_of L j lam true) (Nj_of L j N lam true)
                  s reality nside)
    (fun j y => p_wfwd O y (wkf L N lam s nside true reality j) (Lj_of L j lam true) (Nj_of L j N lam true)
                  s reality nside)
    (fun a => if Ls_of L J_min lam true =? 1 then Ok (one_pixel a)
              else p_inv O a (SKern (Ls_of L J_min lam true) 0 reality s nside false)
                     (Ls_of L J_min lam true) s reality 0 nside)
    (fun y => p_fwd O y (SKern (Ls_of L J_min lam true) 0 reality s nside true)
                (Ls_of L J_min lam true) s reality 0 nside))
    as (w & sc & Ew & Esc & Hl & Hw & Efs & Ts & ETs & Ts_eq & Rec).
  { apply Hh. }
  { intros j Hj. destruct (sizes L N J_min J 0 lam true psi phi HL HN Hlam HF j ltac:(lia)) as (Z1 & Z2 & Z3 & Z4).
    destruct (X2 (Lj_of L j lam true) (Nj_of L j N lam true) ltac:(lia) ltac:(lia)
      (wc L N lam true psi flm j)) as (y & A & _ & B).
    - apply (wc_is0 L N J_min J 0 lam true psi phi); auto. lia.
    - exists y. split; assumption. }
  { apply (scal_edge _ 0 reality _ (s2_f_shape (Ls_of L J_min lam true) s nside)
      (fun a => p_inv O a (SKern (Ls_of L J_min lam true) 0 reality s nside false)
                  (Ls_of L J_min lam true) s reality 0 nside)).
    - apply (sc_is L N J_min J 0 lam true psi phi HL HN Hlam HF flm reality Hh).
    - apply X1. lia.
    - intros E1. rewrite E1 in *. now apply X3. }
  exists w, sc. split.
  - rewrite (pre_analysis_ok L N J_min J lam HL HN Hlam EJ ltac:(lia) O f 0 s nside reality psi phi);
      auto; try lia.
    + rewrite Eb. cbn [bind].
      rewrite (mapM_ext _ (fun j => p_winv O (wc L N lam true psi flm j) (wkf L N lam s nside false reality j)
        (Lj_of L j lam true) (Nj_of L j N lam true) s reality nside)).
      * rewrite Ew. cbn [bind need]. rewrite Esc. reflexivity.
      * intros j Hj. apply In_zrange in Hj. rewrite wk_nth by (auto; lia). reflexivity.
    + intros flm' Ef'. rewrite Eb in Ef'. apply Ok_inj in Ef'. subst flm'. eapply harm_sh, Hh.
  - assert (Sy : pre_synthesis O w sc L N J_min lam 0 s nside reality (Some (psi, phi))
        (Some (Some (SKern L 0 reality s nside false), Some (SKern (Ls_of L J_min lam true) 0 reality s nside true),
               map (wkf L N lam s nside true reality) (zrange J_min J)))
      = p_inv O (scale_l (dir_total L psi phi J_min J) flm) (SKern L 0 reality s nside false) L s reality 0 nside).
    { rewrite (pre_synthesis_ok L N J_min J lam HL HN Hlam EJ ltac:(lia) O w sc 0 s nside reality psi phi);
        auto; try lia.
      - rewrite Efs. cbn [bind]. rewrite (mapM_ext _ (fun j => fj <- lrd w (j - J_min) ;;
          p_wfwd O fj (wkf L N lam s nside true reality j) (Lj_of L j lam true) (Nj_of L j N lam true) s reality nside)).
        + rewrite ETs. cbn [bind]. now rewrite Rec.
        + intros j Hj. apply In_zrange in Hj. rewrite wk_nth by (auto; lia). reflexivity.
      - intros S ES. rewrite Efs in ES. apply Ok_inj in ES. subst S. split; reflexivity.
      - intros j fj pj T Hj Efj Epj ET. rewrite wk_nth in Epj by (auto; lia). apply Ok_inj in Epj. subst pj.
        destruct (Hw j Hj) as (y & _ & B1 & B2 & _).
        assert (fj = y) as -> by congruence. rewrite B1 in ET. apply Ok_inj in ET. subst T. apply wc_shape. }
    split; [exact Sy|]. intros Ht. rewrite Sy, (scale_1 L 0); auto. apply Hh.
Qed.

(*@ C23_round_trip_torch *)
Lemma rt_torch : forall O f flm L N lam J_min J spin0 s nside reality psi phi pa ps,
  1 <= L -> 1 <= N <= L -> (1 < lam)%R ->
  is_filters L N J_min lam 0 spin0 psi phi -> j_max L lam = Ok J ->
  exact_t O s nside reality ->
  (scal_bandlimit L J_min lam true = Ok 1 ->
   one_point 0 reality (fun y => t_fwd O y (SKern 1 0 reality s nside true) 1 s reality 0 nside)) ->
  generate_full_precomputes L N J_min lam s nside false reality false = Ok pa ->
  generate_full_precomputes L N J_min lam s nside true reality false = Ok ps ->
  is_harmonic L 0 reality flm -> t_inv O flm (SKern L 0 reality s nside false) L s reality 0 nside = Ok f ->
  exists w sc,
    torch_analysis O f L N J_min lam 0 s nside reality (Some (psi, phi)) (Some pa) = Ok (map Some w, sc) /\
    torch_synthesis O w sc L N J_min lam 0 s nside reality (Some (psi, phi)) (Some ps)
    = t_inv O (scale_l (dir_total L psi phi J_min J) flm) (SKern L 0 reality s nside false) L s reality 0 nside /\
    ((forall l, 0 <= l < L -> dir_total L psi phi J_min J l = 1%R) ->
     torch_synthesis O w sc L N J_min lam 0 s nside reality (Some (psi, phi)) (Some ps) = Ok f).
Proof.
  intros O f flm L N lam J_min J spin0 s nside reality psi phi pa ps HL HN Hlam E EJ (X1 & X2) X3 Ea Eq Hh Ef.
  pose proof (filt_J L N J_min J 0 spin0 lam psi phi HL ltac:(lia) Hlam E EJ) as HF.
  filt_facts HF. pose proof (Ls_range L J_min lam true HL ltac:(lra)).
  rewrite (gen_full_ok L N J_min lam s nside false reality false J) in Ea by (auto; lra || lia).
  rewrite (gen_full_ok L N J_min lam s nside true reality false J) in Eq by (auto; lra || lia).
  cbn [negb] in Ea, Eq. apply Ok_inj in Ea. apply Ok_inj in Eq. subst pa ps.
  rewrite scal_bandlimit_ok in X3 by lra.
  assert (Eb : t_fwd O f (SKern L 0 reality s nside true) L s reality 0 nside = Ok flm).
  { destruct (X1 L HL flm Hh) as (f' & E1 & _ & E2). congruence. }
  destruct (round_gen L N J_min J 0 lam true psi phi HL HN Hlam HF flm
    (fun j a => t_winv O a (wkf L N lam s nside false reality j) (Lj_of L j lam true) (Nj_of L j N lam true)
                  s reality nside)
    (fun j y => t_wfwd O y (wkf L N lam s nside true reality j) (Lj_of L j lam true) (Nj_of L j N lam true)
                  s reality nside)
    (fun a => if Ls_of L J_min lam true =? 1 then Ok (one_pixel a)
              else t_inv O a (SKern (Ls_of L J_min lam true) 0 reality s nside false)
                     (Ls_of L J_min lam true) s reality 0 nside)
    (fun y => t_fwd O y (SKern (Ls_of L J_min lam true) 0 reality s nside true)
                (Ls_of L J_min lam true) s reality 0 nside))
    as (w & sc & Ew & Esc & Hl & Hw & Efs & Ts & ETs & Ts_eq & Rec).
  { apply Hh. }
  { intros j Hj. destruct (sizes L N J_min J 0 lam true psi phi HL HN Hlam HF j ltac:(lia)) as (Z1 & Z2 & Z3 & Z4).
    destruct (X2 (Lj_of L j lam true) (Nj_of L j N lam true) ltac:(lia) ltac:(lia)
      (wc L N lam true psi flm j)) as (y & A & _ & B).
    - apply (wc_is0 L N J_min J 0 lam true psi phi); auto. lia.
    - exists y. split; assumption. }
  { apply (scal_edge _ 0 reality _ (s2_f_shape (Ls_of L J_min lam true) s nside)
      (fun a => t_inv O a (SKern (Ls_of L J_min lam true) 0 reality s nside false)
                  (Ls_of L J_min lam true) s reality 0 nside)).
    - apply (sc_is L N J_min J 0 lam true psi phi HL HN Hlam HF flm reality Hh).
    - apply X1. lia.
    - intros E1. rewrite E1 in *. now apply X3. }
  exists w, sc. split.
  - rewrite (torch_analysis_ok L N J_min J lam HL HN Hlam EJ ltac:(lia) O f 0 s nside reality psi phi);
      auto; try lia.
    + rewrite Eb. cbn [bind].
      rewrite (mapM_ext _ (fun j => t_winv O (wc L N lam true psi flm j) (wkf L N lam s nside false reality j)
        (Lj_of L j lam true) (Nj_of L j N lam true) s reality nside)).
      * rewrite Ew. cbn [bind need]. rewrite Esc. reflexivity.
      * intros j Hj. apply In_zrange in Hj. rewrite wk_nth by (auto; lia). reflexivity.
    + intros flm' Ef'. rewrite Eb in Ef'. apply Ok_inj in Ef'. subst flm'. eapply harm_sh, Hh.
  - assert (Sy : torch_synthesis O w sc L N J_min lam 0 s nside reality (Some (psi, phi))
        (Some (Some (SKern L 0 reality s nside false), Some (SKern (Ls_of L J_min lam true) 0 reality s nside true),
               map (wkf L N lam s nside true reality) (zrange J_min J)))
      = t_inv O (scale_l (dir_total L psi phi J_min J) flm) (SKern L 0 reality s nside false) L s reality 0 nside).
    { rewrite (torch_synthesis_ok L N J_min J lam HL HN Hlam EJ ltac:(lia) O w sc 0 s nside reality psi phi);
        auto; try lia.
      - rewrite Efs. cbn [bind]. rewrite (mapM_ext _ (fun j => fj <- lrd w (j - J_min) ;;
          t_wfwd O fj (wkf L N lam s nside true reality j) (Lj_of L j lam true) (Nj_of L j N lam true) s reality nside)).
        + rewrite ETs. cbn [bind]. now rewrite Rec.
        + intros j Hj. apply In_zrange in Hj. rewrite wk_nth by (auto; lia). reflexivity.
      - intros S ES. rewrite Efs in ES. apply Ok_inj in ES. subst S. split; reflexivity.
      - intros j fj pj T Hj Efj Epj ET. rewrite wk_nth in Epj by (auto; lia). apply Ok_inj in Epj. subst pj.
        destruct (Hw j Hj) as (y & _ & B1 & B2 & _).
        assert (fj = y) as -> by congruence. rewrite B1 in ET. apply Ok_inj in ET. subst T. apply wc_shape. }
    split; [exact Sy|]. intros Ht. rewrite Sy, (scale_1 L 0); auto. apply Hh.
Qed.

Lemma real_const a : real_harmonic 1 a -> nd_real (constant_field a) = constant_field a.
Proof.
  intros Hr. unfold nd_real, constant_field. cbn [nshape ndat]. f_equal. apply functional_extensionality.
  assert (E : Im (get2 a 0 0) = 0%R).
  { pose proof (Hr 0 0) as H. change (1 - 1 - 0) with 0 in H. change (1 - 1 + 0) with 0 in H.
    change (sign_of 0) with 1%R in H. rewrite Cmult_1_l in H. apply (f_equal Im) in H.
    unfold Cconj in H. cbn [Im snd] in H. fold (Im (get2 a 0 0)) in H. lra. }
  intros [|i [|j [|k ix]]]; auto. destruct (_ && _); auto.
  destruct (get2 a 0 0) as [x y]. cbn [Im snd] in E. subst y. unfold Cmult, RtoC. cbn [Re fst snd].
  f_equal. ring.
Qed.

(*@ C23_round_trip_c *)
Lemma rt_c : forall O f flm L N lam J_min J spin spin0 s ix (reality : bool) psi phi,
  1 <= L -> 1 <= N <= L -> (1 < lam)%R ->
  is_filters L N J_min lam spin spin0 psi phi -> j_max L lam = Ok J ->
  ssht_index s ix -> exact_c O spin s ix reality ->
  (reality = true -> spin = 0 /\ real_fields (fun a L => c_inv O a L 0 true ix)) ->
  (scal_bandlimit L J_min lam true = Ok 1 -> one_point spin reality (fun y => c_fwd O y 1 spin reality ix)) ->
  is_harmonic L spin reality flm -> c_inv O flm L spin reality ix = Ok f ->
  exists w sc,
    ssht_analysis O f L N J_min lam spin s reality (Some (psi, phi)) = Ok (w, sc) /\
    ssht_synthesis O w sc L N J_min lam spin s reality (Some (psi, phi))
    = c_inv O (scale_l (dir_total L psi phi J_min J) flm) L spin reality ix /\
    ((forall l, Z.abs spin <= l < L -> dir_total L psi phi J_min J l = 1%R) ->
     ssht_synthesis O w sc L N J_min lam spin s reality (Some (psi, phi)) = Ok f).
Proof.
  intros O f flm L N lam J_min J spin spin0 s ix reality psi phi HL HN Hlam E EJ Hix (X1 & X2) Hre X3 Hh Ef.
  pose proof (filt_J L N J_min J spin spin0 lam psi phi HL ltac:(lia) Hlam E EJ) as HF.
  filt_facts HF. pose proof (Ls_range L J_min lam true HL ltac:(lra)).
  assert (Ei : ssht_sampling s = Ok ix).
  { unfold ssht_index in Hix. destruct Hix as [[-> ->]|[[-> ->]|[[-> ->]|[-> ->]]]]; reflexivity. }
  rewrite scal_bandlimit_ok in X3 by lra.
  assert (Eb : c_fwd O f L spin reality ix = Ok flm).
  { destruct (X1 L HL flm Hh) as (f' & E1 & _ & E2). congruence. }
  pose proof (sc_is L N J_min J spin lam true psi phi HL HN Hlam HF flm reality Hh) as Hsc.
  destruct (round_gen L N J_min J spin lam true psi phi HL HN Hlam HF flm
    (fun j a => c_winv O a (Lj_of L j lam true) (Nj_of L j N lam true) (L0_of j lam true) s reality)
    (fun j y => c_wfwd O y (Lj_of L j lam true) (Nj_of L j N lam true) (L0_of j lam true) s reality)
    (fun a => if Ls_of L J_min lam true =? 1 then Ok (one_pixel a)
              else c_inv O a (Ls_of L J_min lam true) spin reality ix)
    (fun y => c_fwd O (if reality then nd_real y else y) (Ls_of L J_min lam true) spin reality ix))
    as (w & sc & Ew & Esc & Hl & Hw & Efs & Ts & ETs & Ts_eq & Rec).
  { apply Hh. }
  { intros j Hj. destruct (sizes L N J_min J spin lam true psi phi HL HN Hlam HF j ltac:(lia)) as (Z1 & Z2 & Z3 & Z4).
    destruct (X2 (Lj_of L j lam true) (Nj_of L j N lam true) (L0_of j lam true) ltac:(lia) ltac:(lia) ltac:(lia)
      (wc L N lam true psi flm j)) as (y & A & _ & B).
    - apply (wc_is L N J_min J spin lam true psi phi); auto. lia.
    - exists y. split; assumption. }
  { destruct (scal_edge _ spin reality _ (s2_f_shape (Ls_of L J_min lam true) s None)
      (fun a => c_inv O a (Ls_of L J_min lam true) spin reality ix)
      (fun y => c_fwd O y (Ls_of L J_min lam true) spin reality ix) Hsc) as (y & Y1 & Y2).
    - apply X1. lia.
    - intros E1. rewrite E1 in *. now apply X3.
    - exists y. split; auto. destruct reality; auto. replace (nd_real y) with y; auto.
      destruct (Hre eq_refl) as [-> Hr]. symmetry. destruct Hsc as [Hsc1 Hsc2]. specialize (Hsc2 eq_refl).
      destruct (Z.eqb_spec (Ls_of L J_min lam true) 1) as [E1|_].
      + rewrite E1 in *. apply Ok_inj in Y1. subst y. rewrite (harmonic_1 _ 0) by assumption. now apply real_const.
      + apply (Hr _ _ _ Hsc1 Hsc2 Y1). }
  exists w, sc. split.
  - rewrite (ssht_analysis_ok L N J_min J lam HL HN Hlam EJ ltac:(lia) O f spin s reality psi phi ix); auto; try lia.
    + rewrite Eb. cbn [bind]. rewrite Ew. cbn [bind]. rewrite Esc. reflexivity.
    + intros flm' Ef'. rewrite Eb in Ef'. apply Ok_inj in Ef'. subst flm'. eapply harm_sh, Hh.
  - assert (Sy : ssht_synthesis O w sc L N J_min lam spin s reality (Some (psi, phi))
      = c_inv O (scale_l (dir_total L psi phi J_min J) flm) L spin reality ix).
    { rewrite (ssht_synthesis_ok L N J_min J lam HL HN Hlam EJ ltac:(lia) O w sc spin s reality psi phi ix);
        auto; try lia.
      - rewrite Efs. cbn [bind]. rewrite ETs. cbn [bind]. now rewrite Rec.
      - intros S ES. rewrite Efs in ES. apply Ok_inj in ES. subst S. split; reflexivity.
      - intros j fj T Hj Efj ET.
        destruct (Hw j Hj) as (y & _ & B1 & B2 & _).
        assert (fj = y) as -> by congruence. rewrite B1 in ET. apply Ok_inj in ET. subst T. apply wc_shape. }
    split; [exact Sy|]. intros Ht. rewrite Sy, (scale_1 L spin); auto. apply Hh.
Qed.

(*% a signal with every coefficient non-zero, and a scaling function on one pixel (J_min = 0) *)
(*@E C23_example *)
Lemma ex_c23 : exists psi phi pa ps f,
  filters_directional_vectorised 5 3 0 2 0 0 = Ok (psi, phi) /\ is_filters 5 3 0 2 0 0 psi phi /\ j_max 5 2 = Ok 3 /\
  (forall l, 0 <= l < 5 -> dir_total 5 psi phi 0 3 l = 1%R) /\
  exact_b demo 0 MW None true /\ exact_j demo 0 MW None true /\ exact_p demo MW None true /\
  exact_t demo MW None true /\ exact_c demo 0 MW 0 true /\ ssht_index MW 0 /\
  reads_nonnegative demo MW None /\ real_fields (fun a L => c_inv demo a L 0 true 0) /\
  scal_bandlimit 5 0 2 true = Ok 1 /\
  one_point 0 true (fun y => j_fwd demo y 1 0 None MW true) /\
  one_point 0 true (fun y => p_fwd demo y (SKern 1 0 true MW None true) 1 MW true 0 None) /\
  one_point 0 true (fun y => t_fwd demo y (SKern 1 0 true MW None true) 1 MW true 0 None) /\
  one_point 0 true (fun y => c_fwd demo y 1 0 true 0) /\
  generate_full_precomputes 5 3 0 2 MW None false true false = Ok pa /\
  generate_full_precomputes 5 3 0 2 MW None true true false = Ok ps /\
  is_harmonic 5 0 true (demo_flm 5) /\ b_inv demo (demo_flm 5) 5 0 MW None true = Ok f /\
  (forall l m, 0 <= l < 5 -> Z.abs m <= l -> get2 (demo_flm 5) l (5 - 1 + m) <> RtoC 0).
Proof.
  destruct (v5 3 0 ltac:(lia) ltac:(lia)) as (psi & phi & E & T & _). destruct (f5 MW true ltac:(now left)) as (f & Ef).
  exists psi, phi. do 2 eexists. exists f. repeat (split; [demo_step|]). intros. now apply demo_flm_ne.
Qed.

(*@E C07_example *)
Lemma ex_c07 : exists f w sc w' sc', j_max 5 2 = Ok 3 /\ sampling_known MW None /\
  fwd_shapes_b demo 0 MW None true /\ inv_shapes_b demo 0 MW None true /\
  analysis demo f 5 3 1 2 0 0 MW None true true false = Ok (w, sc) /\
  analysis_looped demo f 5 3 1 2 0 0 MW None true true = Ok (w', sc').
Proof.
  destruct (v5 3 1 ltac:(lia) ltac:(lia)) as (psi & phi & E & T & _). destruct (l5 3 1 ltac:(lia) ltac:(lia)) as (psi' & phi' & E' & T').
  destruct (f5 MW true ltac:(now left)) as (f & Ef).
  destruct (rt_vec demo f (demo_flm 5) 5 3 2 1 3 0 MW None true true psi phi) as (w & sc & A & _); try demo_step.
  destruct (rt_loop demo f (demo_flm 5) 5 3 2 1 3 0 0 MW None true true psi' phi') as (w' & sc' & A' & _); try demo_step.
  { intros _. split; demo_step. }
  exists f, w, sc, w', sc'. demo_all.
Qed.

(*% ** C24: spin-lowered wavelets do not reconstruct *)

Lemma scale_ext L c d flm : rows flm = L -> (forall l, 0 <= l < L -> c l = d l) -> scale_l c flm = scale_l d flm.
Proof. intros HL H. unfold scale_l. apply mk2_ext. intros l q Hl Hq. rewrite H by lia. reflexivity. Qed.
Lemma scale_get L spin c flm l m : harmonic L spin flm ->
  get2 (scale_l c flm) l (L - 1 + m) = Cmult (RtoC (c l)) (get2 flm l (L - 1 + m)).
Proof.
  intros (F1 & F2 & F). destruct (Ceq0_dec (get2 flm l (L - 1 + m))) as [E|Hne].
  - rewrite E. unfold scale_l. cbn [get2 mk2]. destruct (_ && _); [rewrite E|]; ring || (symmetry; apply Cmult_0_r).
  - apply F in Hne. unfold scale_l. rewrite get2_mk by lia. reflexivity.
Qed.
Lemma scale_is L spin reality c flm : is_harmonic L spin reality flm -> is_harmonic L spin reality (scale_l c flm).
Proof.
  intros (Hh & Hr). pose proof Hh as (F1 & F2 & F). split.
  - split; [exact F1|]. split; [exact F2|]. intros l m Hne. rewrite (scale_get L spin) in Hne by assumption.
    apply F. intros E. apply Hne. rewrite E. ring.
  - intros E l m. specialize (Hr E l m). replace (L - 1 - m) with (L - 1 + - m) in * by lia.
    rewrite !(scale_get L spin) by assumption. rewrite Hr, Cmult_conj, Cconj_RtoC. ring.
Qed.
Lemma fct_lt a b : 0 <= a < b -> 2 <= b -> (factorial a < factorial b)%R.
Proof.
  intros Ha Hb. unfold factorial.
  assert (fact (Z.to_nat a) < fact (Z.to_nat b))%nat; [|now apply lt_INR].
  assert (fact (Z.to_nat a) <= fact (Z.to_nat b - 1))%nat by (apply fact_le; lia).
  assert (2 <= Z.to_nat b)%nat by lia. destruct (Z.to_nat b) as [|n]; [lia|].
  replace (S n - 1)%nat with n in * by lia. cbn [fact]. pose proof (lt_O_fact n). nia.
Qed.
Lemma ratio_not_1 l s : s <> 0 -> Z.abs s <= l -> spin_ratio l s <> 1%R.
Proof.
  intros Hs Hl E. unfold spin_ratio in E.
  assert (P : forall x, (0 < factorial x)%R) by (intros; apply lt_0_INR, lt_O_fact).
  pose proof (P (l - s)). apply (f_equal (fun x => x * factorial (l - s))%R) in E. field_simplify in E; [|lra].
  destruct (Z_lt_le_dec 0 s).
  - pose proof (fct_lt (l - s) (l + s) ltac:(lia) ltac:(lia)). lra.
  - pose proof (fct_lt (l + s) (l - s) ltac:(lia) ltac:(lia)). lra.
Qed.
Lemma dir_total_low L N lam J_min J spin spin0 psi phi : 1 <= L -> 1 <= N -> (1 < lam)%R ->
  filters_directional L N J_min lam spin spin0 = Ok (psi, phi) -> j_max L lam = Ok J ->
  forall l, 0 <= l < L -> l < Z.max (Z.abs spin) (Z.abs spin0) -> dir_total L psi phi J_min J l = 0%R.
Proof.
  intros HL HN Hlam E EJ l Hl H.
  destruct (inv_dir lam L J_min Hlam HL N spin spin0 psi phi HN E) as (J1 & EJ1 & HJ & -> & ->).
  assert (J1 = J) as -> by (eapply same_J; eauto).
  unfold dir_total, phid. rewrite get1_mk by lia.
  replace (el_min spin spin0 <=? l) with false by (unfold el_min; zb).
  rewrite (sumZ_ext _ _ _ (fun _ => 0%R)).
  - rewrite sumZ_zero by auto. ring.
  - intros j Hj. apply sumZ_zero. intros m Hm. rewrite psid_get by lia.
    replace (el_min spin spin0 <=? l) with false by (unfold el_min; zb). rewrite andb_false_r, Cmod_0. ring.
Qed.

(*@ C24_spin0_factor *)
Lemma spin0_total : forall L N lam J_min J spin spin0 psi phi k,
  1 <= L -> 1 <= N -> (1 < lam)%R ->
  filters_directional L N J_min lam spin spin0 = Ok (psi, phi) ->
  k_lam L lam 300 = Ok k -> j_max L lam = Ok J ->
  forall l, 0 <= l < L -> (forall j, J_min <= j <= J -> (get2 k j l <= 1)%R) ->
  dir_total L psi phi J_min J l
  = if l <? Z.max (Z.abs spin) (Z.abs spin0) then 0%R else spin_ratio l spin0.
Proof.
  intros L N lam J_min J spin spin0 psi phi k HL HN Hlam E Ek EJ l Hl Hk.
  destruct (Z.ltb_spec l (Z.max (Z.abs spin) (Z.abs spin0))).
  - eapply dir_total_low; eauto.
  - pose proof (inv_dir lam L J_min Hlam HL N spin spin0 psi phi HN E) as (J1 & EJ1 & HJ & _).
    assert (J1 = J) as -> by (eapply same_J; eauto).
    pose proof (filters_axisym_ok lam Hlam L J_min J HL EJ HJ) as Ea.
    rewrite (dir_adm_looped L N lam J_min J spin spin0 psi phi _ _ HL HN Hlam E Ea EJ l) by lia.
    destruct (admissibility_looped L lam J_min J _ _ k HL Hlam Ea Ek EJ l ltac:(lia))
      as [[_ ->]|(j & Hj & H' & _)]; [ring|]. specialize (Hk j Hj). lra.
Qed.

(*@ C24_spin0_round_trip_refuted *)
Lemma spin0_rt : forall O f flm L N lam J_min J spin spin0 s nside (reality : bool) mr psi phi k,
  1 <= L -> 1 <= N <= L -> (1 < lam)%R ->
  filters_directional L N J_min lam spin spin0 = Ok (psi, phi) -> j_max L lam = Ok J ->
  k_lam L lam 300 = Ok k ->
  (forall j l, J_min <= j <= J -> 0 <= l < L -> (get2 k j l <= 1)%R) ->
  exact_b O spin s nside reality ->
  (reality = true -> spin = 0 /\ reads_nonnegative O s nside) ->
  is_harmonic L spin reality flm -> b_inv O flm L spin s nside reality = Ok f ->
  exists w sc g,
    analysis_looped O f L N J_min lam spin spin0 s nside reality mr = Ok (w, sc) /\
    synthesis_looped O w sc L N J_min lam spin spin0 s nside reality mr = Ok g /\
    b_fwd O g L spin s nside reality
    = Ok (scale_l (fun l => if l <? Z.max (Z.abs spin) (Z.abs spin0) then 0%R else spin_ratio l spin0) flm) /\
    (spin0 <> 0 -> (exists l m, get2 flm l m <> RtoC 0) -> g <> f).
Proof.
  intros O f flm L N lam J_min J spin spin0 s nside reality mr psi phi k HL HN Hlam E EJ Ek Hk X Hre Hh Ef.
  destruct (rt_loop O f flm L N lam J_min J spin spin0 s nside reality mr psi phi HL HN Hlam E EJ X Hre Hh Ef)
    as (w & sc & A & B & _).
  rewrite (scale_ext L _ (fun l => if l <? Z.max (Z.abs spin) (Z.abs spin0) then 0%R else spin_ratio l spin0)) in B.
  2:{ apply Hh. }
  2:{ intros l Hl. apply (spin0_total L N lam J_min J spin spin0 psi phi k); auto. lia. }
  set (c := fun l => if l <? Z.max (Z.abs spin) (Z.abs spin0) then 0%R else spin_ratio l spin0) in *.
  destruct X as (X1 & _). destruct (X1 L HL (scale_l c flm) (scale_is L spin reality c flm Hh)) as (g & G1 & _ & G2).
  exists w, sc, g. rewrite B, G1. repeat split; auto. intros Hs (l & q & Hne) ->.
  destruct (X1 L HL flm Hh) as (f' & F1 & _ & F2). assert (f' = f) as -> by congruence.
  rewrite F2 in G2. apply Ok_inj in G2.
  pose proof (scale_get L spin c flm l (q - (L - 1)) (proj1 Hh)) as Eg. rewrite <- G2 in Eg.
  replace (L - 1 + (q - (L - 1))) with q in Eg by lia.
  assert (Ec : c l = 1%R).
  { destruct (Req_dec (c l) 1); auto. exfalso. apply Hne. 
    assert (Cmult (RtoC (1 - c l)) (get2 flm l q) = RtoC 0) as E0.
    { rewrite RtoC_minus. replace (Cmult (Cminus (RtoC 1) (RtoC (c l))) (get2 flm l q))
        with (Cminus (get2 flm l q) (Cmult (RtoC (c l)) (get2 flm l q))) by ring. rewrite <- Eg. ring. }
    destruct (Ceq0_dec (get2 flm l q)) as [|Hn]; auto. exfalso. revert E0. apply Cmult_neq_0; auto.
    intros E1. apply RtoC_inj in E1. lra. }
  unfold c in Ec. destruct (Z.ltb_spec l (Z.max (Z.abs spin) (Z.abs spin0))); [lra|].
  revert Ec. apply ratio_not_1; auto. lia.
Qed.

(*@E C24_example *)
Lemma ex_c24 : exists psi phi k f, filters_directional 5 3 1 2 0 1 = Ok (psi, phi) /\ j_max 5 2 = Ok 3 /\
  k_lam 5 2 300 = Ok k /\ (forall j l, 0 <= j <= 3 -> 0 <= l < 5 -> (get2 k j l <= 1)%R) /\
  exact_b demo 0 MW None true /\ reads_nonnegative demo MW None /\
  is_harmonic 5 0 true (demo_flm 5) /\ b_inv demo (demo_flm 5) 5 0 MW None true = Ok f /\
  get2 (demo_flm 5) 2 (5 - 1 + 1) <> RtoC 0.
Proof.
  destruct (valid_range 5 3 2 3 1 0 1) as (_ & _ & _ & (psi & phi & E & _) & _); try demo_step.
  destruct k5 as (k & E1 & E2 & _). destruct (f5 MW true ltac:(now left)) as (f & Ef).
  exists psi, phi, k, f. demo_all.
Qed.

(*% ** C25, C26, C27: looped against vectorised, and the reality shortcuts *)

(*@ C26_looped_analysis_coefficients *)
Lemma looped_coefs : forall O f L N lam J_min J spin spin0 s nside (reality : bool) mr psi phi sz Ls,
  1 <= L -> 1 <= N -> (1 < lam)%R ->
  filters_directional L N J_min lam spin spin0 = Ok (psi, phi) -> j_max L lam = Ok J ->
  sampling_known s nside ->
  (forall flm, b_fwd O f L spin s nside reality = Ok flm -> is_harmonic L spin reality flm) ->
  (forall j, LN_j L j N lam mr = Ok (sz j)) -> scal_bandlimit L J_min lam mr = Ok Ls ->
  analysis_looped O f L N J_min lam spin spin0 s nside reality mr
  = (flm <- b_fwd O f L spin s nside reality ;;
     w <- mapM (fun j => let '(Lj, Nj, L0j) := sz j in
                 b_winv O (wcoefs L psi flm sz j) Lj Nj L0j s reality nside) (zrange J_min (J + 1)) ;;
     sc <- b_inv O (scaling_coefs L phi flm Ls) Ls spin s nside reality ;;
     Ok (w, sc)).
Proof.
  intros O f L N lam J_min J spin spin0 s nside reality mr psi phi sz Ls HL HN Hlam E EJ Hs Hf Hsz HLs.
  pose proof (filt_J L N J_min J spin spin0 lam psi phi HL ltac:(lia) Hlam (or_introl E) EJ) as HF.
  filt_facts HF. rewrite (sz_eq L N lam mr sz ltac:(lra) Hsz), (Ls_eq L J_min lam mr Ls ltac:(lra) HLs).
  rewrite (analysis_looped_ok L N J_min J lam mr HL HN Hlam EJ ltac:(lia) O f spin spin0 s nside reality psi phi);
    auto; try lia.
  2:{ intros flm Ef. eapply harm_sh. apply Hf. exact Ef. }
  apply bind_ext. intros flm Ef. destruct (Hf flm Ef) as [Hh Hr].
  rewrite (mapM_ext _ (fun j => let '(Lj, Nj, L0j) := szf L N lam mr j in
     b_winv O (wcoefs L psi flm (szf L N lam mr) j) Lj Nj L0j s reality nside)).
  - apply bind_ext. intros w _. f_equal. f_equal.
    rewrite <- (sloop_false L J_min spin lam mr phi HL Hlam) by assumption.
    destruct reality; [|reflexivity]. apply sloop_true. now apply Hr.
  - intros j Hj. apply In_zrange in Hj. unfold szf at 1. f_equal.
    change (wcoefs L psi flm (szf L N lam mr) j) with (wc L N lam mr psi flm j).
    rewrite <- (wloop_false L N J_min J spin lam mr psi phi HL HN Hlam HF flm j) by (assumption || lia).
    destruct reality; [|reflexivity].
    apply (wloop_true L N J_min J spin lam mr psi phi HL HN Hlam HF); [lia|]. now apply Hr.
Qed.

(*@ C26_coefficients_of_real_signals *)
Lemma coefs_real : forall L N lam J_min J spin spin0 reality mr psi phi flm sz Ls,
  1 <= L -> 1 <= N <= L -> (1 < lam)%R ->
  is_filters L N J_min lam spin spin0 psi phi -> j_max L lam = Ok J ->
  (forall j, LN_j L j N lam mr = Ok (sz j)) -> scal_bandlimit L J_min lam mr = Ok Ls ->
  is_harmonic L spin reality flm ->
  is_harmonic Ls spin reality (scaling_coefs L phi flm Ls) /\
  forall j, J_min <= j <= J ->
    let '(Lj, Nj, L0j) := sz j in is_wigner Lj Nj L0j reality (wcoefs L psi flm sz j).
Proof.
  intros L N lam J_min J spin spin0 reality mr psi phi flm sz Ls HL HN Hlam E EJ Hsz HLs Hh.
  pose proof (filt_J L N J_min J spin spin0 lam psi phi HL ltac:(lia) Hlam E EJ) as HF. filt_facts HF.
  rewrite (sz_eq L N lam mr sz ltac:(lra) Hsz), (Ls_eq L J_min lam mr Ls ltac:(lra) HLs). split.
  - apply (sc_is L N J_min J spin lam mr psi phi HL HN Hlam HF flm reality Hh).
  - intros j Hj. unfold szf at 1. apply (wc_is L N J_min J spin lam mr psi phi); auto. lia.
Qed.

Lemma synl_total L N J_min J spin lam mr psi phi reality Ts S :
  1 <= L -> 1 <= N -> (1 < lam)%R -> filt L N J_min J spin lam psi phi ->
  harmonic (Ls_of L J_min lam mr) spin S ->
  (forall j, J_min <= j <= J -> wigner (Lj_of L j lam mr) (Nj_of L j N lam mr) (L0_of j lam mr) (Tnth nd0 J_min Ts j)) ->
  synl L N J_min J lam mr spin psi phi reality Ts S
  = looped_synthesised L J_min J spin psi phi (szf L N lam mr) (Tnth nd0 J_min Ts) (Ls_of L J_min lam mr) S reality.
Proof.
  intros HL HN Hlam HF HS HT. filt_facts HF. pose proof (Ls_range L J_min lam mr HL ltac:(lra)).
  assert (W : forall l m, 0 <= l < L -> Z.abs m < L ->
    csumZ J_min (J + 1) (fun j => wpart_loop L spin psi j (Lj_of L j lam mr) (Nj_of L j N lam mr) (L0_of j lam mr)
                                    (Tnth nd0 J_min Ts j) l m)
    = csumZ J_min (J + 1) (fun j => let '(a, b, c) := szf L N lam mr j in
                 wavelet_part L psi j a b c (Tnth nd0 J_min Ts j) l m)).
  { intros l m Hl Hm. apply csumZ_ext. intros j Hj. unfold szf.
    apply (wpart_eq L N J_min J spin lam mr psi phi HL HN Hlam HF); try lia. apply HT. lia. }
  destruct HS as (S1 & S2 & HS).
  unfold synl, looped_synthesised. apply mk2_ext. intros l q Hl Hq. cbv zeta. set (m := q - (L - 1)).
  unfold sy_fin. rewrite !W by (unfold m; lia). unfold scaling_part, pval. rewrite w4.
  rewrite <- !andb_assoc. 
  destruct (Z.leb_spec (Z.abs spin) l); cbn [andb]; rewrite ?andb_false_r; cbn [andb].
  2:{ destruct (_ && _); [|ring].
      destruct (Ceq0_dec (get2 S l (Ls_of L J_min lam mr - 1 + m))) as [->|Hn]; [ring|apply HS in Hn; lia]. }
  destruct (Z.ltb_spec l (Ls_of L J_min lam mr)); cbn [andb]; rewrite ?andb_false_r; cbn [andb]; [|ring].
  destruct (Z.leb_spec (Z.abs m) l); rewrite ?andb_true_r, ?andb_false_r.
  - replace (Z.abs m <? Ls_of L J_min lam mr) with true by zb.
    replace (Z.abs (- m) <? Ls_of L J_min lam mr) with true by (rewrite Z.abs_opp; zb).
    destruct (reality && (m <? 0)); [|reflexivity].
    rewrite sign_msgn. unfold msgn. rewrite Z.even_opp. reflexivity.
  - destruct (_ <? _); [|ring].
    destruct (Ceq0_dec (get2 S l (Ls_of L J_min lam mr - 1 + m))) as [->|Hn]; [ring|apply HS in Hn; lia].
Qed.

(*@ C27_looped_synthesis_coefficients *)
Lemma looped_syn_coefs : forall O f_wav f_scal L N lam J_min J spin spin0 s nside reality mr psi phi sz Ls,
  1 <= L -> 1 <= N -> (1 < lam)%R ->
  filters_directional L N J_min lam spin spin0 = Ok (psi, phi) -> j_max L lam = Ok J ->
  fwd_coefs_b O spin s nside reality ->
  (forall j, LN_j L j N lam mr = Ok (sz j)) -> scal_bandlimit L J_min lam mr = Ok Ls ->
  synthesis_looped O f_wav f_scal L N J_min lam spin spin0 s nside reality mr
  = (_ <- wavelet_shape_check f_wav f_scal L N J_min lam s nside mr ;;
     S <- b_fwd O f_scal Ls spin s nside reality ;;
     Ws <- mapM (fun j => let '(Lj, Nj, L0j) := sz j in
                  fj <- lrd f_wav (j - J_min) ;; b_wfwd O fj Lj Nj L0j s reality nside) (zrange J_min (J + 1)) ;;
     b_inv O (looped_synthesised L J_min J spin psi phi sz
                (fun j => nth (Z.to_nat (j - J_min)) Ws (mk3 0 0 0 (fun _ _ _ => RtoC 0))) Ls S reality)
       L spin s nside reality).
Proof.
  intros O f_wav f_scal L N lam J_min J spin spin0 s nside reality mr psi phi sz Ls HL HN Hlam E EJ (Hf & Hw) Hsz HLs.
  pose proof (filt_J L N J_min J spin spin0 lam psi phi HL ltac:(lia) Hlam (or_introl E) EJ) as HF.
  filt_facts HF. rewrite (sz_eq L N lam mr sz ltac:(lra) Hsz), (Ls_eq L J_min lam mr Ls ltac:(lra) HLs).
  rewrite (synthesis_looped_ok L N J_min J lam mr HL HN Hlam EJ ltac:(lia) O f_wav f_scal spin spin0 s nside reality psi phi);
    auto; try lia.
  - apply bind_ext. intros _ _. apply bind_ext. intros S ES. apply bind_ext. intros Ts ETs.
    rewrite (synl_total L N J_min J spin lam mr psi phi reality Ts S HL HN Hlam HF); [reflexivity|eauto|].
    intros j Hj. destruct (mapM_inv _ _ _ ETs) as [Hl Hn].
    destruct (Hn (Z.to_nat (j - J_min)) j) as (y & Ey & En).
    { rewrite nth_error_zrange by lia. f_equal. lia. }
    apply bind_inv in Ey as (fj & _ & Ey). unfold Tnth. rewrite (nth_error_nth _ _ _ En). eauto.
  - intros S ES. eapply harm_sh; eauto.
  - intros j fj T Hj _ ET. eapply wig_sh; eauto.
Qed.

(*@ C27_reality_nonnegative_orders *)
Lemma looped_nonneg : forall L J_min J spin psi phi sz W Ls S reality l m,
  0 <= l < L -> 0 <= m < L ->
  get2 (looped_synthesised L J_min J spin psi phi sz W Ls S reality) l (L - 1 + m)
  = get2 (synthesised L J_min J psi phi sz W Ls S) l (L - 1 + m).
Proof.
  intros. unfold looped_synthesised, synthesised. rewrite !get2_mk by lia.
  cbv zeta. replace (L - 1 + m - (L - 1)) with m by lia. replace (m <? 0) with false by zb.
  rewrite andb_false_r. reflexivity.
Qed.

(*@ C27_reality_negative_orders_refuted *)
Lemma looped_neg : forall L J_min J spin psi phi sz W Ls S l m,
  real_harmonic L (synthesised L J_min J psi phi sz W Ls S) ->
  0 <= l < L -> - L < m < 0 ->
  get2 (looped_synthesised L J_min J spin psi phi sz W Ls S true) l (L - 1 + m)
  = Cplus (get2 (synthesised L J_min J psi phi sz W Ls S) l (L - 1 + m))
      (if (Z.abs spin <=? l) && (l <? Ls) && (Z.abs m <=? l)
       then csumZ J_min (J + 1) (fun j => let '(Lj, Nj, L0j) := sz j in wavelet_part L psi j Lj Nj L0j (W j) l m)
       else RtoC 0).
Proof.
  intros L J_min J spin psi phi sz W Ls S l m Hr Hl Hm.
  specialize (Hr l (- m)). replace (L - 1 - - m) with (L - 1 + m) in Hr by lia.
  unfold looped_synthesised. rewrite get2_mk by lia. cbv zeta.
  replace (L - 1 + m - (L - 1)) with m by lia. replace (m <? 0) with true by zb. cbn [andb].
  destruct (_ && _).
  - rewrite Hr. unfold synthesised. rewrite get2_mk by lia. cbv zeta.
    replace (L - 1 + - m - (L - 1)) with (- m) by lia. rewrite !sign_msgn. unfold msgn. rewrite Z.even_opp.
    apply Cplus_comm.
  - unfold synthesised. rewrite get2_mk by lia. cbv zeta. replace (L - 1 + m - (L - 1)) with m by lia. ring.
Qed.

(*% with the reality flag off the looped array is the vectorised one *)
Lemma looped_off L J_min J spin psi phi sz W Ls S :
  looped_synthesised L J_min J spin psi phi sz W Ls S false = synthesised L J_min J psi phi sz W Ls S.
Proof. reflexivity. Qed.

(** the coefficients only see the rows J_min..J of the filters *)
Lemma wcoefs_psi L N lam mr J psi psi' flm j : 1 <= L -> 1 <= N <= L -> (1 < lam)%R -> j_max L lam = Ok J ->
  0 <= j <= J ->
  (forall l m, 0 <= l < L -> Z.abs m < L -> get3 psi j l (L - 1 + m) = get3 psi' j l (L - 1 + m)) ->
  wcoefs L psi flm (szf L N lam mr) j = wcoefs L psi' flm (szf L N lam mr) j.
Proof.
  intros HL HN Hlam EJ Hj H. unfold wcoefs, szf, wavelet_coefs.
  destruct (sz_facts L N J lam mr HL HN Hlam EJ j Hj) as (Z1 & Z2 & Z3 & Z4).
  apply mk3_ext. intros a l b Ha Hl Hb. cbv zeta. rewrite H by lia. reflexivity.
Qed.
Lemma synthesised_psi L N lam mr J_min J psi psi' phi W Ls S : 1 <= L -> 1 <= N <= L -> (1 < lam)%R ->
  j_max L lam = Ok J -> 0 <= J_min ->
  (forall j l m, J_min <= j <= J -> 0 <= l < L -> Z.abs m < L ->
     get3 psi j l (L - 1 + m) = get3 psi' j l (L - 1 + m)) ->
  synthesised L J_min J psi phi (szf L N lam mr) W Ls S = synthesised L J_min J psi' phi (szf L N lam mr) W Ls S.
Proof.
  intros HL HN Hlam EJ HJ H. unfold synthesised. apply mk2_ext. intros l b Hl Hb. cbv zeta. f_equal.
  apply csumZ_ext. intros j Hj. unfold szf, wavelet_part.
  destruct (sz_facts L N J lam mr HL HN Hlam EJ j ltac:(lia)) as (Z1 & Z2 & Z3 & Z4).
  destruct (_ && _); [|reflexivity]. apply csumZ_ext. intros n Hn. rewrite H by lia. reflexivity.
Qed.

(*@ C25_analysis_looped_equals_vectorised *)
Lemma analysis_eq : forall O f L N lam J_min J spin s nside (reality : bool) mr k,
  1 <= L -> 1 <= N <= L -> (1 < lam)%R -> j_max L lam = Ok J -> 0 <= J_min < J ->
  k_lam L lam 300 = Ok k ->
  (forall j l, J_min <= j <= J -> 0 <= l < L -> (get2 k j l <= get2 k (j + 1) l)%R) ->
  sampling_known s nside ->
  (forall flm, b_fwd O f L spin s nside reality = Ok flm -> is_harmonic L spin reality flm) ->
  analysis_looped O f L N J_min lam spin 0 s nside reality mr
  = analysis O f L N J_min lam spin 0 s nside reality mr false.
Proof.
  intros O f L N lam J_min J spin s nside reality mr k HL HN Hlam EJ HJ Ek Hk Hs Hf.
  destruct (valid_range L N lam J J_min spin 0 HL ltac:(lia) Hlam EJ HJ)
    as (_ & _ & _ & (psi & phi & E & _) & (vpsi & vphi & Ev & _) & _).
  destruct (dir_loop_vec L N lam J_min J spin psi phi vpsi vphi k HL ltac:(lia) Hlam E Ev Ek EJ) as [<- Hp].
  pose proof (filt_J L N J_min J spin 0 lam vpsi phi HL ltac:(lia) Hlam (or_intror (or_introl Ev)) EJ) as HF.
  filt_facts HF.
  rewrite (looped_coefs O f L N lam J_min J spin 0 s nside reality mr psi phi (szf L N lam mr) (Ls_of L J_min lam mr));
    auto; [|lia|intros; apply LN_j_ok; lra|apply scal_bandlimit_ok; lra].
  rewrite (analysis_ok L N J_min J lam mr HL HN Hlam EJ ltac:(lia) O f spin s nside reality false vpsi phi);
    auto; try lia.
  - apply bind_ext. intros flm Ef.
    rewrite (mapM_ext _ (fun j => b_winv O (wc L N lam mr vpsi flm j) (Lj_of L j lam mr) (Nj_of L j N lam mr)
         (L0_of j lam mr) s reality nside)); [reflexivity|].
    intros j Hj. apply In_zrange in Hj.
    rewrite (wcoefs_psi L N lam mr J psi vpsi); auto; try lia. intros l m Hl Hm.
    apply Hp; auto; [lia|]. apply Hk; lia.
  - eapply known_some; eauto.
  - intros flm Ef. eapply harm_sh. apply Hf. exact Ef.
Qed.

(*@ C25_synthesis_looped_equals_vectorised *)
Lemma synthesis_eq : forall O f_wav f_scal L N lam J_min J spin s nside (reality : bool) mr k,
  1 <= L -> 1 <= N <= L -> (1 < lam)%R -> j_max L lam = Ok J -> 0 <= J_min < J ->
  k_lam L lam 300 = Ok k ->
  (forall j l, J_min <= j <= J -> 0 <= l < L -> (get2 k j l <= get2 k (j + 1) l)%R) ->
  fwd_coefs_b O spin s nside reality ->
  (reality = true -> spin = 0 /\ reads_nonnegative O s nside) ->
  synthesis_looped O f_wav f_scal L N J_min lam spin 0 s nside reality mr
  = synthesis O f_wav f_scal L N J_min lam spin 0 s nside reality mr.
Proof.
  intros O f_wav f_scal L N lam J_min J spin s nside reality mr k HL HN Hlam EJ HJ Ek Hk Hf Hre.
  destruct (valid_range L N lam J J_min spin 0 HL ltac:(lia) Hlam EJ HJ)
    as (_ & _ & _ & (psi & phi & E & _) & (vpsi & vphi & Ev & _) & _).
  destruct (dir_loop_vec L N lam J_min J spin psi phi vpsi vphi k HL ltac:(lia) Hlam E Ev Ek EJ) as [<- Hp].
  rewrite (looped_syn_coefs O f_wav f_scal L N lam J_min J spin 0 s nside reality mr psi phi (szf L N lam mr)
    (Ls_of L J_min lam mr)); auto; [|lia|intros; apply LN_j_ok; lra|apply scal_bandlimit_ok; lra].
  rewrite (synthesis_coefs O f_wav f_scal L N lam J_min J spin s nside reality mr vpsi phi (szf L N lam mr)
    (Ls_of L J_min lam mr)); auto; [| |intros; apply LN_j_ok; lra|apply scal_bandlimit_ok; lra].
  - apply bind_ext. intros _ _. apply bind_ext. intros S ES. apply bind_ext. intros Ts ETs.
    rewrite <- (synthesised_psi L N lam mr J_min J psi vpsi); auto; try lia.
    destruct reality; [|now rewrite looped_off]. destruct (Hre eq_refl) as [-> Hr].
    apply Hr; try reflexivity. intros l m Hl Hm. now apply looped_nonneg.
  - destruct Hf as [H1 H2]. split.
    + intros f l a Ea. destruct (H1 f l a Ea) as (A & B & _). unfold shape2. congruence.
    + intros f l n l0 a Ea. destruct (H2 f l n l0 a Ea) as (A & B & C & _). unfold shape3. congruence.
Qed.

(*@E C25_example *)
Lemma ex_c25 : exists f k, j_max 5 2 = Ok 3 /\ k_lam 5 2 300 = Ok k /\
  (forall j l, 0 <= j <= 3 -> 0 <= l < 5 -> (get2 k j l <= get2 k (j + 1) l)%R) /\ sampling_known MW None /\
  b_inv demo (demo_flm 5) 5 0 MW None true = Ok f /\
  (forall flm, b_fwd demo f 5 0 MW None true = Ok flm -> is_harmonic 5 0 true flm) /\
  fwd_coefs_b demo 0 MW None true /\ reads_nonnegative demo MW None.
Proof.
  destruct k5 as (k & E1 & _ & E3).
  destruct (proj1 (demo_exact_b 0 MW true ltac:(now left)) 5 ltac:(lia) (demo_flm 5) (demo_flm_ok 5 true)) as (f & Ef & _ & Eb).
  exists f, k. repeat (split; [demo_step|]). split; [|demo_all]. intros flm H. rewrite H in Eb. apply Ok_inj in Eb. subst. demo_step.
Qed.

(*@E C26_example *)
Lemma ex_c26 : exists f psi phi sz Ls, filters_directional 5 3 1 2 0 0 = Ok (psi, phi) /\ j_max 5 2 = Ok 3 /\
  sampling_known MW None /\ b_inv demo (demo_flm 5) 5 0 MW None true = Ok f /\
  (forall flm, b_fwd demo f 5 0 MW None true = Ok flm -> is_harmonic 5 0 true flm) /\
  (forall j, LN_j 5 j 3 2 true = Ok (sz j)) /\ scal_bandlimit 5 1 2 true = Ok Ls /\
  is_filters 5 3 1 2 0 0 psi phi /\ is_harmonic 5 0 true (demo_flm 5).
Proof.
  destruct (l5 3 1 ltac:(lia) ltac:(lia)) as (psi & phi & E & T). destruct (s5 3 1 true) as (sz & Ls & E1 & E2).
  destruct (proj1 (demo_exact_b 0 MW true ltac:(now left)) 5 ltac:(lia) (demo_flm 5) (demo_flm_ok 5 true)) as (f & Ef & _ & Eb).
  exists f, psi, phi, sz, Ls. repeat (split; [demo_step|]). split.
  - intros flm H. rewrite H in Eb. apply Ok_inj in Eb. subst. demo_step.
  - demo_all.
Qed.

(*% the arrays synthesised from the coefficients of a real signal have the symmetry of a real signal *)
(*@E C27_example *)
Lemma ex_c27 : exists psi phi sz Ls, filters_directional 5 3 1 2 0 0 = Ok (psi, phi) /\ j_max 5 2 = Ok 3 /\
  fwd_coefs_b demo 0 MW None true /\
  (forall j, LN_j 5 j 3 2 true = Ok (sz j)) /\ scal_bandlimit 5 1 2 true = Ok Ls /\
  real_harmonic 5 (synthesised 5 1 3 psi phi sz (wcoefs 5 psi (demo_flm 5) sz) Ls (scaling_coefs 5 phi (demo_flm 5) Ls)).
Proof.
  destruct (l5 3 1 ltac:(lia) ltac:(lia)) as (psi & phi & E & T). destruct (s5 3 1 true) as (sz & Ls & E1 & E2).
  exists psi, phi, sz, Ls. repeat (split; [demo_step|]).
  destruct (reconstruction 5 3 2 1 3 0 0 true psi phi (demo_flm 5) sz Ls) as [_ ->]; try demo_step.
  apply (demo_flm_ok 5 true). reflexivity.
Qed.

(*% ** C28: multiresolution against full resolution *)

(*@ C28_wavelet_coefficients *)
Lemma mr_wav : forall L N lam J_min J spin spin0 psi phi flm j Lj Nj L0j,
  1 <= L -> 1 <= N <= L -> (1 < lam)%R ->
  is_filters L N J_min lam spin spin0 psi phi -> j_max L lam = Ok J ->
  harmonic L spin flm -> J_min <= j <= J -> LN_j L j N lam true = Ok (Lj, Nj, L0j) ->
  LN_j L j N lam false = Ok (L, N, 0) /\
  forall n l m, Z.abs n < N -> 0 <= l < L -> Z.abs m < L ->
    get3 (wavelet_coefs L psi flm j L N 0) (N - 1 + n) l (L - 1 + m)
    = if (Z.abs n <? Nj) && (L0j <=? l) && (l <? Lj) && (Z.abs m <? Lj)
      then get3 (wavelet_coefs L psi flm j Lj Nj L0j) (Nj - 1 + n) l (Lj - 1 + m) else RtoC 0.
Proof.
  intros L N lam J_min J spin spin0 psi phi flm j Lj Nj L0j HL HN Hlam E EJ (F1 & F2 & F) Hj HLN.
  pose proof (filt_J L N J_min J spin spin0 lam psi phi HL ltac:(lia) Hlam E EJ) as HF. filt_facts HF.
  pose proof (sz_facts L N J lam true HL HN Hlam EJ j ltac:(lia)) as (Z1 & Z2 & Z3 & Z4).
  rewrite LN_j_ok in HLN by lra. apply Ok_inj in HLN. apply pair_equal_spec in HLN as [HLN E3].
  apply pair_equal_spec in HLN as [E1 E2].
  split; [rewrite LN_j_ok by lra; reflexivity|]. intros n l m Hn Hl Hm.
  pose proof (f_psi_supp _ _ _ _ _ _ _ _ HF true j l n ltac:(lia) ltac:(lia) ltac:(lia)) as St.
  pose proof (f_psi_supp _ _ _ _ _ _ _ _ HF false j l n ltac:(lia) ltac:(lia) ltac:(lia)) as Sf.
  rewrite E1, E2, E3 in St. rewrite E1, E3 in Z1. rewrite E1 in Z2. rewrite E2 in Z3, Z4.
  change (Nj_of L j N lam false) with N in Sf.
  unfold wavelet_coefs at 1. rewrite get3_mk by lia. cbv zeta.
  replace (N - 1 + n - (N - 1)) with n by lia. replace (L - 1 + m - (L - 1)) with m by lia.
  destruct ((Z.abs n <? Nj) && (L0j <=? l) && (l <? Lj) && (Z.abs m <? Lj)) eqn:Eb.
  - rewrite !andb_true_iff, !Z.ltb_lt, Z.leb_le in Eb.
    unfold wavelet_coefs. rewrite get3_mk by lia. cbv zeta.
    replace (Nj - 1 + n - (Nj - 1)) with n by lia. replace (Lj - 1 + m - (Lj - 1)) with m by lia.
    replace (0 <=? l) with true by zb. replace (L0j <=? l) with true by zb. rewrite !andb_true_r.
    destruct (Ceq0_dec (get3 psi j l (L - 1 + n))) as [E0|Hne].
    + rewrite E0, Cconj_0. destruct (Z.even _), (Z.even _); ring.
    + destruct (St Hne) as (_ & _ & _ & -> & _). destruct (Sf Hne) as (_ & _ & _ & -> & _). reflexivity.
  - destruct (Z.even (n - (N - 1)) && (0 <=? l)); [|reflexivity].
    destruct (Ceq0_dec (get3 psi j l (L - 1 + n))) as [->|Hne]; [rewrite Cconj_0; ring|].
    destruct (Ceq0_dec (get2 flm l (L - 1 + m))) as [->|Hnf]; [ring|]. exfalso.
    apply St in Hne. apply F in Hnf. apply not_true_iff_false in Eb. apply Eb.
    rewrite !andb_true_iff, !Z.ltb_lt, Z.leb_le. lia.
Qed.

(*@ C28_scaling_coefficients *)
Lemma mr_scal : forall L N lam J_min J spin spin0 psi phi flm Ls,
  1 <= L -> 1 <= N <= L -> (1 < lam)%R ->
  is_filters L N J_min lam spin spin0 psi phi -> j_max L lam = Ok J ->
  harmonic L spin flm -> scal_bandlimit L J_min lam true = Ok Ls ->
  scal_bandlimit L J_min lam false = Ok L /\
  forall l m, 0 <= l < L -> Z.abs m < L ->
    get2 (scaling_coefs L phi flm L) l (L - 1 + m)
    = if (l <? Ls) && (Z.abs m <? Ls) then get2 (scaling_coefs L phi flm Ls) l (Ls - 1 + m) else RtoC 0.
Proof.
  intros L N lam J_min J spin spin0 psi phi flm Ls HL HN Hlam E EJ (F1 & F2 & F) HLs.
  pose proof (filt_J L N J_min J spin spin0 lam psi phi HL ltac:(lia) Hlam E EJ) as HF. filt_facts HF.
  pose proof (Ls_range L J_min lam true HL ltac:(lra)).
  rewrite scal_bandlimit_ok in HLs by lra. apply Ok_inj in HLs.
  split; [rewrite scal_bandlimit_ok by lra; reflexivity|]. intros l m Hl Hm.
  pose proof (f_phi_supp _ _ _ _ _ _ _ _ HF true l ltac:(lia)) as St. rewrite HLs in *.
  unfold scaling_coefs at 1. rewrite get2_mk by lia. cbv zeta. replace (L - 1 + m - (L - 1)) with m by lia.
  destruct ((l <? Ls) && (Z.abs m <? Ls)) eqn:Eb.
  - rewrite !andb_true_iff, !Z.ltb_lt in Eb. unfold scaling_coefs. rewrite get2_mk by lia. cbv zeta.
    now replace (Ls - 1 + m - (Ls - 1)) with m by lia.
  - destruct (Req_dec (get1 phi l) 0) as [->|Hne]; [rewrite Rmult_0_r; ring|].
    destruct (Ceq0_dec (get2 flm l (L - 1 + m))) as [->|Hnf]; [ring|]. exfalso.
    apply St in Hne. apply F in Hnf. apply not_true_iff_false in Eb. apply Eb.
    rewrite !andb_true_iff, !Z.ltb_lt. lia.
Qed.

(*@ C28_synthesised_coefficients *)
Lemma mr_syn : forall L N lam J_min J spin spin0 psi phi sz Ls W W' S S',
  1 <= L -> 1 <= N <= L -> (1 < lam)%R ->
  is_filters L N J_min lam spin spin0 psi phi -> j_max L lam = Ok J ->
  (forall j, LN_j L j N lam true = Ok (sz j)) -> scal_bandlimit L J_min lam true = Ok Ls ->
  (forall j, J_min <= j <= J -> let '(Lj, Nj, L0j) := sz j in
     wigner L N 0 (W' j) /\ same_inside L N (W' j) Lj Nj L0j (W j)) ->
  harmonic L spin S' ->
  (forall l m, 0 <= l < Ls -> Z.abs m < Ls -> get2 S' l (L - 1 + m) = get2 S l (Ls - 1 + m)) ->
  synthesised L J_min J psi phi (fun _ => (L, N, 0)) W' L S' = synthesised L J_min J psi phi sz W Ls S.
Proof.
  intros L N lam J_min J spin spin0 psi phi sz Ls W W' S S' HL HN Hlam E EJ Hsz HLs HW (S1 & S2 & HS) HSS.
  pose proof (filt_J L N J_min J spin spin0 lam psi phi HL ltac:(lia) Hlam E EJ) as HF. filt_facts HF.
  pose proof (Ls_range L J_min lam true HL ltac:(lra)).
  rewrite (sz_eq L N lam true sz ltac:(lra) Hsz) in *. pose proof (Ls_eq L J_min lam true Ls ltac:(lra) HLs) as EL.
  unfold synthesised. apply mk2_ext. intros l b Hl Hb. cbv zeta. set (m := b - (L - 1)). f_equal.
  - apply csumZ_ext. intros j Hj. specialize (HW j ltac:(lia)). unfold szf in *.
    pose proof (sz_facts L N J lam true HL HN Hlam EJ j ltac:(lia)) as (Z1 & Z2 & Z3 & Z4).
    set (Lj := Lj_of L j lam true) in *. set (Nj := Nj_of L j N lam true) in *. set (L0j := L0_of j lam true) in *.
    destruct HW as ((W0 & W1 & W2 & HT) & HW). unfold wavelet_part.
    replace ((0 <=? l) && (l <? L) && (Z.abs m <? L)) with true by (unfold m; zb).
    assert (Sp : forall n, Z.abs n < L -> get3 psi j l (L - 1 + n) <> RtoC 0 ->
       L0j <= l < Lj /\ Z.abs n < Nj /\ Z.even (n - (Nj - 1)) = true /\ Z.even (n - (N - 1)) = true).
    { intros n Hn Hne.
      pose proof (f_psi_supp _ _ _ _ _ _ _ _ HF true j l n ltac:(lia) ltac:(lia) ltac:(lia) Hne) as St.
      pose proof (f_psi_supp _ _ _ _ _ _ _ _ HF false j l n ltac:(lia) ltac:(lia) ltac:(lia) Hne) as Sf.
      fold Lj Nj L0j in St. change (Nj_of L j N lam false) with N in Sf. tauto. }
    destruct ((L0j <=? l) && (l <? Lj) && (Z.abs m <? Lj)) eqn:Eb.
    + rewrite !andb_true_iff, !Z.ltb_lt, Z.leb_le in Eb.
      rewrite (csumZ_widen _ (- Nj + 1) Nj).
      * apply csumZ_ext. intros n Hn. destruct (Ceq0_dec (get3 psi j l (L - 1 + n))) as [->|Hne].
        { destruct (Z.even _), (Z.even _); ring. }
        destruct (Sp n ltac:(lia) Hne) as (_ & _ & -> & ->). rewrite HW by lia. reflexivity.
      * lia.
      * lia.
      * intros n Hn Ho. destruct (Z.even _); [|reflexivity].
        destruct (Ceq0_dec (get3 psi j l (L - 1 + n))) as [->|Hne]; [ring|]. apply Sp in Hne; lia.
    + apply csumZ_zero. intros n Hn. destruct (Z.even _); [|reflexivity].
      destruct (Ceq0_dec (get3 psi j l (L - 1 + n))) as [->|Hne]; [ring|]. apply Sp in Hne; [|lia].
      destruct (Ceq0_dec (get3 (W' j) (N - 1 + n) l (L - 1 + m))) as [->|Hnw]; [ring|]. apply HT in Hnw.
      exfalso. apply not_true_iff_false in Eb. apply Eb. rewrite !andb_true_iff, !Z.ltb_lt, Z.leb_le. lia.
  - unfold scaling_part. replace ((l <? L) && (Z.abs m <? L)) with true by (unfold m; zb).
    pose proof (f_phi_supp _ _ _ _ _ _ _ _ HF true l ltac:(lia)) as St. rewrite <- EL in *.
    destruct ((l <? Ls) && (Z.abs m <? Ls)) eqn:Eb.
    + rewrite !andb_true_iff, !Z.ltb_lt in Eb. rewrite HSS by lia. reflexivity.
    + destruct (Req_dec (get1 phi l) 0) as [->|Hne]; [rewrite Rmult_0_r; ring|].
      destruct (Ceq0_dec (get2 S' l (L - 1 + m))) as [->|Hnf]; [ring|]. exfalso.
      apply St in Hne. apply HS in Hnf. apply not_true_iff_false in Eb. apply Eb.
      rewrite !andb_true_iff, !Z.ltb_lt. lia.
Qed.

(*@ C28_same_signal *)
Lemma mr_same : forall O f flm L N lam J_min J spin s nside reality,
  1 <= L -> 1 <= N <= L -> (1 < lam)%R -> j_max L lam = Ok J -> 0 <= J_min < J ->
  exact_b O spin s nside reality ->
  is_harmonic L spin reality flm -> b_inv O flm L spin s nside reality = Ok f ->
  exists w sc w' sc' g,
    analysis O f L N J_min lam spin 0 s nside reality true false = Ok (w, sc) /\
    analysis O f L N J_min lam spin 0 s nside reality false false = Ok (w', sc') /\
    synthesis O w sc L N J_min lam spin 0 s nside reality true = Ok g /\
    synthesis O w' sc' L N J_min lam spin 0 s nside reality false = Ok g.
Proof.
  intros O f flm L N lam J_min J spin s nside reality HL HN Hlam EJ HJ X Hh Ef.
  destruct (valid_range L N lam J J_min spin 0 HL ltac:(lia) Hlam EJ HJ) as (_ & _ & _ & _ & (psi & phi & E & _) & _).
  destruct (rt_vec O f flm L N lam J_min J spin s nside reality true psi phi HL HN Hlam E EJ X Hh Ef)
    as (w & sc & A & B & _).
  destruct (rt_vec O f flm L N lam J_min J spin s nside reality false psi phi HL HN Hlam E EJ X Hh Ef)
    as (w' & sc' & A' & B' & _).
  destruct X as (X1 & _).
  destruct (X1 L HL _ (scale_is L spin reality (dir_total L psi phi J_min J) flm Hh)) as (g & G & _).
  exists w, sc, w', sc', g. rewrite B, B', G. auto.
Qed.

(*% full-resolution arrays W' that agree with the multiresolution ones inside, from the coefficients of the signal *)
(*@E C28_example *)
Lemma ex_c28 : exists psi phi sz Ls f, is_filters 5 3 1 2 0 0 psi phi /\ j_max 5 2 = Ok 3 /\
  harmonic 5 0 (demo_flm 5) /\ (forall j, LN_j 5 j 3 2 true = Ok (sz j)) /\ scal_bandlimit 5 1 2 true = Ok Ls /\
  (forall j, 1 <= j <= 3 -> let '(Lj, Nj, L0j) := sz j in
     wigner 5 3 0 (wavelet_coefs 5 psi (demo_flm 5) j 5 3 0) /\
     same_inside 5 3 (wavelet_coefs 5 psi (demo_flm 5) j 5 3 0) Lj Nj L0j (wcoefs 5 psi (demo_flm 5) sz j)) /\
  exact_b demo 0 MW None true /\ is_harmonic 5 0 true (demo_flm 5) /\
  b_inv demo (demo_flm 5) 5 0 MW None true = Ok f.
Proof.
  destruct (v5 3 1 ltac:(lia) ltac:(lia)) as (psi & phi & E & T & _). destruct (s5 3 1 true) as (sz & Ls & E1 & E2).
  destruct (f5 MW true ltac:(now left)) as (f & Ef).
  exists psi, phi, sz, Ls, f. repeat (split; [demo_step|]). split; [|demo_all].
  assert (F : is_filters 5 3 1 2 0 0 psi phi) by demo_step. assert (Hh : harmonic 5 0 (demo_flm 5)) by demo_step.
  intros j Hj. pose proof (E1 j) as Ez. destruct (sz j) as [[Lj Nj] L0j] eqn:Ej.
  destruct (coefs_real 5 3 2 1 3 0 0 false false psi phi (demo_flm 5) (fun _ => (5, 3, 0)) 5) as [_ W]; try demo_step.
  destruct (mr_wav 5 3 2 1 3 0 0 psi phi (demo_flm 5) j Lj Nj L0j) as [_ M]; try demo_step.
  split; [apply (W j Hj)|]. intros n l m Hn Hl Hm. unfold wcoefs. rewrite Ej.
  rewrite LN_j_ok in Ez by lra. apply Ok_inj in Ez. apply pair_equal_spec in Ez as [Ez E0]. apply pair_equal_spec in Ez as [EL EN].
  pose proof (sz_facts 5 3 3 2 true ltac:(lia) ltac:(lia) ltac:(lra) J5 j ltac:(lia)) as S. rewrite EL, EN, E0 in S.
  rewrite M by lia.
  replace (_ && _ && _ && _) with true; [reflexivity|]. symmetry. rewrite !andb_true_iff, !Z.ltb_lt, Z.leb_le. lia.
Qed.

(*% ** C29: all backends agree with the base vectorised multiresolution transforms, given the same filters.
   The hypotheses on O say that the external transforms of the backend agree with the base ones:
   on band-limited coefficients for the inverse ones, from the lower limit L0 on for the forward Wigner ones. *)

Definition same_res {A} (P : A -> A -> Prop) (x y : res A) : Prop :=
  match x, y with Ok a, Ok b => P a b | Err e, Err e' => e = e' | _, _ => False end.
Lemma mapM_same {A B} (d : B) (P : A -> B -> B -> Prop) (f g : A -> res B) l :
  (forall x, In x l -> same_res (P x) (f x) (g x)) ->
  same_res (fun a b => forall i x, nth_error l i = Some x -> P x (nth i a d) (nth i b d)) (mapM f l) (mapM g l).
Proof.
  induction l as [|x l IH]; intros H; cbn [mapM same_res].
  - intros [|i] x Hx; discriminate.
  - pose proof (H x (or_introl eq_refl)) as Hx. specialize (IH (fun y Hy => H y (or_intror Hy))).
    destruct (f x) as [a|e], (g x) as [b|e']; cbn [bind same_res] in *; try contradiction; auto.
    destruct (mapM f l) as [as_|e], (mapM g l) as [bs|e']; cbn [bind same_res] in *; try contradiction; auto.
    intros [|i] y Hy; cbn in *; [injection Hy as <-|]; auto.
Qed.

Definition from_L0 (L0 : Z) (a b : arr3 C) : Prop :=
  shape3 a = shape3 b /\ forall n l m, L0 <= l -> get3 a n l m = get3 b n l m.
Lemma same_from_res L0 x y : same_from L0 x y -> same_res (from_L0 L0) x y.
Proof. unfold same_from, same_res, from_L0. destruct x, y; auto. Qed.

Lemma syn_same L N J_min J lam mr psi phi A B S :
  (forall j, J_min <= j <= J -> from_L0 (L0_of j lam mr) (Tnth nd0 J_min A j) (Tnth nd0 J_min B j)) ->
  syn L N J_min J lam mr psi phi A S = syn L N J_min J lam mr psi phi B S.
Proof.
  intros H. unfold syn, synthesised. apply mk2_ext. intros l b Hl Hb. cbv zeta. f_equal.
  apply csumZ_ext. intros j Hj. destruct (H j ltac:(lia)) as [_ Hg]. unfold szf, wavelet_part.
  destruct (Z.leb_spec (L0_of j lam mr) l); cbn [andb]; [|reflexivity].
  destruct (_ && _); [|reflexivity]. apply csumZ_ext. intros n Hn. rewrite Hg by assumption. reflexivity.
Qed.

Lemma coefs_shapes O spin s nside reality : fwd_coefs_b O spin s nside reality -> fwd_shapes_b O spin s nside reality.
Proof.
  intros [H1 H2]. split.
  + intros f l a Ea. destruct (H1 f l a Ea) as (A & B & _). unfold shape2. congruence.
  + intros f l n l0 a Ea. destruct (H2 f l n l0 a Ea) as (A & B & C & _). unfold shape3. congruence.
Qed.

(** common end of the five synthesis proofs *)
Lemma syn_tail L N J_min J lam mr spin psi phi (O : s2fft) f_wav s nside reality S
    (f : Z -> res (arr3 C)) (inv : arr2 C -> res nd) :
  1 <= L -> 1 <= N <= L -> (1 < lam)%R -> filt L N J_min J spin lam psi phi ->
  fwd_coefs_b O spin s nside reality -> harmonic (Ls_of L J_min lam mr) spin S ->
  (forall j, J_min <= j <= J -> same_from (L0_of j lam mr) (f j)
     (fj <- lrd f_wav (j - J_min) ;;
      b_wfwd O fj (Lj_of L j lam mr) (Nj_of L j N lam mr) (L0_of j lam mr) s reality nside)) ->
  (forall a, harmonic L spin a -> inv a = b_inv O a L spin s nside reality) ->
  (Ts <- mapM f (zrange J_min (J + 1)) ;; inv (syn L N J_min J lam mr psi phi Ts S))
  = (Ts <- mapM (fun j => fj <- lrd f_wav (j - J_min) ;;
        b_wfwd O fj (Lj_of L j lam mr) (Nj_of L j N lam mr) (L0_of j lam mr) s reality nside) (zrange J_min (J + 1)) ;;
     b_inv O (syn L N J_min J lam mr psi phi Ts S) L spin s nside reality).
Proof.
  intros HL HN Hlam HF [C1 C2] HS Hf Hinv. filt_facts HF.
  pose proof (mapM_same nd0 (fun j => from_L0 (L0_of j lam mr)) f
    (fun j => fj <- lrd f_wav (j - J_min) ;;
        b_wfwd O fj (Lj_of L j lam mr) (Nj_of L j N lam mr) (L0_of j lam mr) s reality nside)
    (zrange J_min (J + 1))) as H.
  assert (H0 : forall x, In x (zrange J_min (J + 1)) -> same_res (from_L0 (L0_of x lam mr)) (f x)
    (fj <- lrd f_wav (x - J_min) ;;
     b_wfwd O fj (Lj_of L x lam mr) (Nj_of L x N lam mr) (L0_of x lam mr) s reality nside)).
  { intros x Hx. apply In_zrange in Hx. apply same_from_res, Hf. lia. }
  specialize (H H0). clear H0.
  destruct (mapM f _) as [A|e]; destruct (mapM _ (zrange J_min (J + 1))) as [B|e'] eqn:EB;
    cbn [same_res bind] in *; try contradiction; [|congruence].
  assert (Hn : forall j, J_min <= j <= J -> nth_error (zrange J_min (J + 1)) (Z.to_nat (j - J_min)) = Some j).
  { intros j Hj. rewrite nth_error_zrange by lia. f_equal. lia. }
  rewrite (syn_same _ _ _ _ _ _ _ _ A B).
  - apply Hinv. apply (syn_harmonic L N J_min J spin lam mr HL HN Hlam EJ0); auto; try lia.
    + apply (f_psi_supp _ _ _ _ _ _ _ _ HF).
    + intros j Hj. destruct (mapM_inv _ _ _ EB) as [_ Hy]. destruct (Hy _ _ (Hn j Hj)) as (y & Ey & En).
      apply bind_inv in Ey as (fj & _ & Ey). unfold Tnth. rewrite (nth_error_nth _ _ _ En). eauto.
  - intros j Hj. apply H. auto.
Qed.
Lemma same_bind {A} L0 (r : res A) f g : (forall x, r = Ok x -> same_from L0 (f x) (g x)) ->
  same_from L0 (bind r f) (bind r g).
Proof. destruct r; cbn [bind same_from]; auto. Qed.
Lemma same_shape L0 N L x y a : same_from L0 x y -> (forall b, y = Ok b -> flmn_sh N L b) -> x = Ok a -> flmn_sh N L a.
Proof.
  intros H Hy ->. destruct y as [b|]; cbn [same_from] in H; [|contradiction].
  destruct H as [H _]. specialize (Hy b eq_refl). destruct Hy as (A & B & C). unfold shape3 in H.
  injection H as H1 H2 H3. unfold flmn_sh. rewrite H1, H2, H3. auto.
Qed.

Lemma scal_same O L J_min lam spin s nside reality a (inv : arr2 C -> res nd) :
  (0 < lam)%R ->
  (scal_bandlimit L J_min lam true = Ok 1 -> one_pixel_inverse O spin s nside reality) ->
  (forall a, harmonic (Ls_of L J_min lam true) spin a ->
     inv a = b_inv O a (Ls_of L J_min lam true) spin s nside reality) ->
  harmonic (Ls_of L J_min lam true) spin a ->
  (if Ls_of L J_min lam true =? 1 then Ok (one_pixel a) else inv a)
  = b_inv O a (Ls_of L J_min lam true) spin s nside reality.
Proof.
  intros Hl H1 Hi Ha. destruct (Z.eqb_spec (Ls_of L J_min lam true) 1) as [E|_]; [|auto].
  rewrite scal_bandlimit_ok in H1 by assumption. rewrite E in *. rewrite (harmonic_1 a spin) by assumption.
  symmetry. now apply H1.
Qed.

(*@ C29_jax_analysis *)
Lemma eq_jax_an : forall O f L N lam J_min J spin s nside reality psi phi pa qa,
  1 <= L -> 1 <= N <= L -> (1 < lam)%R ->
  filters_directional_vectorised L N J_min lam spin 0 = Ok (psi, phi) -> j_max L lam = Ok J ->
  sampling_known s nside -> agrees_j O ->
  (forall flm, b_fwd O f L spin s nside reality = Ok flm -> harmonic L spin flm) ->
  (scal_bandlimit L J_min lam true = Ok 1 -> one_pixel_inverse O spin s nside reality) ->
  generate_wigner_precomputes L N J_min lam s nside false reality = Ok qa -> (pa = None \/ pa = Some qa) ->
  jax_analysis O f L N J_min lam spin s nside reality (Some (psi, phi)) pa
  = analysis O f L N J_min lam spin 0 s nside reality true false.
Proof.
  intros O f L N lam J_min J spin s nside reality psi phi pa qa HL HN Hlam E EJ Hs (A1 & A2 & A3 & A4) Hf H1 Ea Hpa.
  pose proof (filt_J L N J_min J spin 0 lam psi phi HL ltac:(lia) Hlam (or_intror (or_introl E)) EJ) as HF.
  filt_facts HF.
  replace (jax_analysis O f L N J_min lam spin s nside reality (Some (psi, phi)) pa)
    with (jax_analysis O f L N J_min lam spin s nside reality (Some (psi, phi)) (Some qa)).
  2:{ destruct Hpa as [->| ->]; [|reflexivity]. unfold jax_analysis. rewrite Ea. reflexivity. }
  rewrite (gen_wigner_ok L N J_min lam s nside false reality J) in Ea by (auto; lra || lia). apply Ok_inj in Ea.
  rewrite (jax_analysis_ok L N J_min J lam HL HN Hlam EJ ltac:(lia) O f spin s nside reality psi phi qa); auto; try lia.
  2:{ rewrite A1. intros flm Ef. eapply harm_sh; eauto. }
  rewrite (analysis_ok L N J_min J lam true HL HN Hlam EJ ltac:(lia) O f spin s nside reality false psi phi);
    auto; try lia.
  2:{ eapply known_some; eauto. }
  2:{ intros flm Ef. eapply harm_sh; eauto. }
  rewrite A1. apply bind_ext. intros flm Ef. pose proof (Hf flm Ef) as Hh.
  rewrite (scal_same O L J_min lam spin s nside reality _ (fun a => j_inv O a (Ls_of L J_min lam true) spin nside s reality));
    auto; try lra.
  2:{ apply (sc_is L N J_min J spin lam true psi phi HL HN Hlam HF flm false). split; [assumption|discriminate]. }
  f_equal. apply mapM_ext. intros j Hj. apply In_zrange in Hj. rewrite <- Ea, lrd_map by lia. cbn [bind].
  apply A4. apply (wc_is L N J_min J spin lam true psi phi HL HN Hlam HF flm j false); [lia|].
  split; [assumption|discriminate].
Qed.

(*@ C29_jax_synthesis *)
Lemma eq_jax_sy : forall O f_wav f_scal L N lam J_min J spin s nside reality psi phi ps qs,
  1 <= L -> 1 <= N <= L -> (1 < lam)%R ->
  filters_directional_vectorised L N J_min lam spin 0 = Ok (psi, phi) -> j_max L lam = Ok J ->
  agrees_j O -> fwd_coefs_b O spin s nside reality ->
  generate_wigner_precomputes L N J_min lam s nside true reality = Ok qs -> (ps = None \/ ps = Some qs) ->
  wavelet_shape_check f_wav f_scal L N J_min lam s nside true = Ok tt ->
  jax_synthesis O f_wav f_scal L N J_min lam spin s nside reality (Some (psi, phi)) ps
  = synthesis O f_wav f_scal L N J_min lam spin 0 s nside reality true.
Proof.
  intros O f_wav f_scal L N lam J_min J spin s nside reality psi phi ps qs HL HN Hlam E EJ (A1 & A2 & A3 & A4) Hc Eq Hps Hch.
  pose proof (filt_J L N J_min J spin 0 lam psi phi HL ltac:(lia) Hlam (or_intror (or_introl E)) EJ) as HF.
  filt_facts HF. pose proof Hc as [C1 C2].
  replace (jax_synthesis O f_wav f_scal L N J_min lam spin s nside reality (Some (psi, phi)) ps)
    with (jax_synthesis O f_wav f_scal L N J_min lam spin s nside reality (Some (psi, phi)) (Some qs)).
  2:{ destruct Hps as [->| ->]; [|reflexivity]. unfold jax_synthesis. rewrite Eq. reflexivity. }
  rewrite (gen_wigner_ok L N J_min lam s nside true reality J) in Eq by (auto; lra || lia). apply Ok_inj in Eq.
  assert (Hk : forall j, J_min <= j <= J -> lrd qs (j - J_min) = Ok (rkf L N lam s nside true reality j)).
  { intros j Hj. rewrite <- Eq, lrd_map by lia. reflexivity. }
  rewrite (jax_synthesis_ok L N J_min J lam HL HN Hlam EJ ltac:(lia) O f_wav f_scal spin s nside reality psi phi qs);
    auto; try lia.
  2:{ rewrite A1. intros S ES. eapply harm_sh; eauto. }
  2:{ intros j fj pj T Hj Efj Epj. rewrite Hk in Epj by assumption. apply Ok_inj in Epj. subst pj.
      apply (same_shape (L0_of j lam true) _ _ _ _ _ (A3 fj _ _ _ s nside reality)).
      intros b Eb. eapply wig_sh; eauto. }
  rewrite (synthesis_ok L N J_min J lam true HL HN Hlam EJ ltac:(lia) O f_wav f_scal spin s nside reality psi phi);
    auto; try lia.
  2:{ intros S ES. eapply harm_sh; eauto. }
  2:{ intros j fj T Hj _ ET. eapply wig_sh; eauto. }
  rewrite Hch. cbn [bind]. rewrite A1. apply bind_ext. intros S ES.
  apply (syn_tail L N J_min J lam true spin psi phi O f_wav s nside reality S _
    (fun a => j_inv O a L spin nside s reality)); auto; eauto.
  intros j Hj. apply same_bind. intros fj Efj. rewrite Hk by assumption. cbn [bind]. apply A3.
Qed.

(*@ C29_precompute_analysis *)
Lemma eq_precompute_an : forall O f L N lam J_min J s nside reality psi phi pa,
  1 <= L -> 1 <= N <= L -> (1 < lam)%R ->
  filters_directional_vectorised L N J_min lam 0 0 = Ok (psi, phi) -> j_max L lam = Ok J ->
  sampling_known s nside -> agrees_p O ->
  (forall flm, b_fwd O f L 0 s nside reality = Ok flm -> harmonic L 0 flm) ->
  (scal_bandlimit L J_min lam true = Ok 1 -> one_pixel_inverse O 0 s nside reality) ->
  generate_full_precomputes L N J_min lam s nside false reality false = Ok pa ->
  pre_analysis O f L N J_min lam 0 s nside reality (Some (psi, phi)) (Some pa)
  = analysis O f L N J_min lam 0 0 s nside reality true false.
Proof.
  intros O f L N lam J_min J s nside reality psi phi pa HL HN Hlam E EJ Hs (A1 & A2 & A3 & A4) Hf H1 Ea.
  pose proof (filt_J L N J_min J 0 0 lam psi phi HL ltac:(lia) Hlam (or_intror (or_introl E)) EJ) as HF.
  filt_facts HF.
  rewrite (gen_full_ok L N J_min lam s nside false reality false J) in Ea by (auto; lra || lia).
  cbn [negb] in Ea. apply Ok_inj in Ea. subst pa.
  rewrite (pre_analysis_ok L N J_min J lam HL HN Hlam EJ ltac:(lia) O f 0 s nside reality psi phi); auto; try lia.
  2:{ rewrite A1. intros flm Ef. eapply harm_sh; eauto. }
  rewrite (analysis_ok L N J_min J lam true HL HN Hlam EJ ltac:(lia) O f 0 s nside reality false psi phi);
    auto; try lia.
  2:{ eapply known_some; eauto. }
  2:{ intros flm Ef. eapply harm_sh; eauto. }
  rewrite A1. apply bind_ext. intros flm Ef. pose proof (Hf flm Ef) as Hh. cbn [need bind].
  rewrite (scal_same O L J_min lam 0 s nside reality _ (fun a =>
    p_inv O a (SKern (Ls_of L J_min lam true) 0 reality s nside false) (Ls_of L J_min lam true) s reality 0 nside));
    auto; try lra.
  2:{ apply (sc_is L N J_min J 0 lam true psi phi HL HN Hlam HF flm false). split; [assumption|discriminate]. }
  rewrite (mapM_ext _ (fun j => b_winv O (wc L N lam true psi flm j) (Lj_of L j lam true) (Nj_of L j N lam true)
     (L0_of j lam true) s reality nside)).
  - reflexivity.
  - intros j Hj. apply In_zrange in Hj. rewrite wk_nth by (auto; lia). cbn [bind].
    apply A4. apply (wc_is L N J_min J 0 lam true psi phi HL HN Hlam HF flm j false); [lia|].
    split; [assumption|discriminate].
Qed.

(*@ C29_precompute_synthesis *)
Lemma eq_precompute_sy : forall O f_wav f_scal L N lam J_min J s nside reality psi phi ps,
  1 <= L -> 1 <= N <= L -> (1 < lam)%R ->
  filters_directional_vectorised L N J_min lam 0 0 = Ok (psi, phi) -> j_max L lam = Ok J ->
  agrees_p O -> fwd_coefs_b O 0 s nside reality ->
  generate_full_precomputes L N J_min lam s nside true reality false = Ok ps ->
  wavelet_shape_check f_wav f_scal L N J_min lam s nside true = Ok tt ->
  pre_synthesis O f_wav f_scal L N J_min lam 0 s nside reality (Some (psi, phi)) (Some ps)
  = synthesis O f_wav f_scal L N J_min lam 0 0 s nside reality true.
Proof.
  intros O f_wav f_scal L N lam J_min J s nside reality psi phi ps HL HN Hlam E EJ (A1 & A2 & A3 & A4) Hc Eq Hch.
  pose proof (filt_J L N J_min J 0 0 lam psi phi HL ltac:(lia) Hlam (or_intror (or_introl E)) EJ) as HF.
  filt_facts HF. pose proof Hc as [C1 C2].
  rewrite (gen_full_ok L N J_min lam s nside true reality false J) in Eq by (auto; lra || lia).
  cbn [negb] in Eq. apply Ok_inj in Eq. subst ps.
  rewrite (pre_synthesis_ok L N J_min J lam HL HN Hlam EJ ltac:(lia) O f_wav f_scal 0 s nside reality psi phi);
    auto; try lia.
  2:{ rewrite A1. intros S ES. eapply harm_sh; eauto. }
  2:{ intros j fj pj T Hj Efj Epj. rewrite wk_nth in Epj by (auto; lia). apply Ok_inj in Epj. subst pj.
      apply (same_shape (L0_of j lam true) _ _ _ _ _ (A3 fj _ _ _ s nside reality)).
      intros b Eb. eapply wig_sh; eauto. }
  rewrite (synthesis_ok L N J_min J lam true HL HN Hlam EJ ltac:(lia) O f_wav f_scal 0 s nside reality psi phi);
    auto; try lia.
  2:{ intros S ES. eapply harm_sh; eauto. }
  2:{ intros j fj T Hj _ ET. eapply wig_sh; eauto. }
  rewrite Hch. cbn [bind]. rewrite A1. apply bind_ext. intros S ES.
  apply (syn_tail L N J_min J lam true 0 psi phi O f_wav s nside reality S _
    (fun a => p_inv O a (SKern L 0 reality s nside false) L s reality 0 nside)); auto; eauto.
  intros j Hj. apply same_bind. intros fj Efj. rewrite wk_nth by (auto; lia). cbn [bind]. apply A3.
Qed.

(*@ C29_torch_analysis *)
Lemma eq_torch_an : forall O f L N lam J_min J s nside reality psi phi pa,
  1 <= L -> 1 <= N <= L -> (1 < lam)%R ->
  filters_directional_vectorised L N J_min lam 0 0 = Ok (psi, phi) -> j_max L lam = Ok J ->
  sampling_known s nside -> agrees_t O ->
  (forall flm, b_fwd O f L 0 s nside reality = Ok flm -> harmonic L 0 flm) ->
  (scal_bandlimit L J_min lam true = Ok 1 -> one_pixel_inverse O 0 s nside reality) ->
  generate_full_precomputes L N J_min lam s nside false reality false = Ok pa ->
  torch_analysis O f L N J_min lam 0 s nside reality (Some (psi, phi)) (Some pa)
  = (' (w, sc) <- analysis O f L N J_min lam 0 0 s nside reality true false ;; Ok (map Some w, sc)).
Proof.
  intros O f L N lam J_min J s nside reality psi phi pa HL HN Hlam E EJ Hs (A1 & A2 & A3 & A4) Hf H1 Ea.
  pose proof (filt_J L N J_min J 0 0 lam psi phi HL ltac:(lia) Hlam (or_intror (or_introl E)) EJ) as HF.
  filt_facts HF.
  rewrite (gen_full_ok L N J_min lam s nside false reality false J) in Ea by (auto; lra || lia).
  cbn [negb] in Ea. apply Ok_inj in Ea. subst pa.
  rewrite (torch_analysis_ok L N J_min J lam HL HN Hlam EJ ltac:(lia) O f 0 s nside reality psi phi); auto; try lia.
  2:{ rewrite A1. intros flm Ef. eapply harm_sh; eauto. }
  rewrite (analysis_ok L N J_min J lam true HL HN Hlam EJ ltac:(lia) O f 0 s nside reality false psi phi);
    auto; try lia.
  2:{ eapply known_some; eauto. }
  2:{ intros flm Ef. eapply harm_sh; eauto. }
  rewrite A1. rewrite ?bind_assoc. apply bind_ext. intros flm Ef. pose proof (Hf flm Ef) as Hh. rewrite ?bind_assoc. cbn [need bind].
  rewrite (scal_same O L J_min lam 0 s nside reality _ (fun a =>
    t_inv O a (SKern (Ls_of L J_min lam true) 0 reality s nside false) (Ls_of L J_min lam true) s reality 0 nside));
    auto; try lra.
  2:{ apply (sc_is L N J_min J 0 lam true psi phi HL HN Hlam HF flm false). split; [assumption|discriminate]. }
  rewrite (mapM_ext _ (fun j => b_winv O (wc L N lam true psi flm j) (Lj_of L j lam true) (Nj_of L j N lam true)
     (L0_of j lam true) s reality nside)).
  - apply bind_ext. intros w _. rewrite ?bind_assoc. apply bind_ext. intros sc _. reflexivity.
  - intros j Hj. apply In_zrange in Hj. rewrite wk_nth by (auto; lia). cbn [bind].
    apply A4. apply (wc_is L N J_min J 0 lam true psi phi HL HN Hlam HF flm j false); [lia|].
    split; [assumption|discriminate].
Qed.

(*@ C29_torch_synthesis *)
Lemma eq_torch_sy : forall O f_wav f_scal L N lam J_min J s nside reality psi phi ps,
  1 <= L -> 1 <= N <= L -> (1 < lam)%R ->
  filters_directional_vectorised L N J_min lam 0 0 = Ok (psi, phi) -> j_max L lam = Ok J ->
  agrees_t O -> fwd_coefs_b O 0 s nside reality ->
  generate_full_precomputes L N J_min lam s nside true reality false = Ok ps ->
  wavelet_shape_check f_wav f_scal L N J_min lam s nside true = Ok tt ->
  torch_synthesis O f_wav f_scal L N J_min lam 0 s nside reality (Some (psi, phi)) (Some ps)
  = synthesis O f_wav f_scal L N J_min lam 0 0 s nside reality true.
Proof.
  intros O f_wav f_scal L N lam J_min J s nside reality psi phi ps HL HN Hlam E EJ (A1 & A2 & A3 & A4) Hc Eq Hch.
  pose proof (filt_J L N J_min J 0 0 lam psi phi HL ltac:(lia) Hlam (or_intror (or_introl E)) EJ) as HF.
  filt_facts HF. pose proof Hc as [C1 C2].
  rewrite (gen_full_ok L N J_min lam s nside true reality false J) in Eq by (auto; lra || lia).
  cbn [negb] in Eq. apply Ok_inj in Eq. subst ps.
  rewrite (torch_synthesis_ok L N J_min J lam HL HN Hlam EJ ltac:(lia) O f_wav f_scal 0 s nside reality psi phi);
    auto; try lia.
  2:{ rewrite A1. intros S ES. eapply harm_sh; eauto. }
  2:{ intros j fj pj T Hj Efj Epj. rewrite wk_nth in Epj by (auto; lia). apply Ok_inj in Epj. subst pj.
      apply (same_shape (L0_of j lam true) _ _ _ _ _ (A3 fj _ _ _ s nside reality)).
      intros b Eb. eapply wig_sh; eauto. }
  rewrite (synthesis_ok L N J_min J lam true HL HN Hlam EJ ltac:(lia) O f_wav f_scal 0 s nside reality psi phi);
    auto; try lia.
  2:{ intros S ES. eapply harm_sh; eauto. }
  2:{ intros j fj T Hj _ ET. eapply wig_sh; eauto. }
  rewrite Hch. cbn [bind]. rewrite A1. apply bind_ext. intros S ES.
  apply (syn_tail L N J_min J lam true 0 psi phi O f_wav s nside reality S _
    (fun a => t_inv O a (SKern L 0 reality s nside false) L s reality 0 nside)); auto; eauto.
  intros j Hj. apply same_bind. intros fj Efj. rewrite wk_nth by (auto; lia). cbn [bind]. apply A3.
Qed.

(*@ C29_c_analysis *)
Lemma eq_c_an : forall O f L N lam J_min J spin s ix (reality : bool) psi phi,
  1 <= L -> 1 <= N <= L -> (1 < lam)%R ->
  filters_directional_vectorised L N J_min lam spin 0 = Ok (psi, phi) -> j_max L lam = Ok J ->
  ssht_index s ix -> agrees_c O -> (reality = true -> nd_real f = f) ->
  (forall flm, b_fwd O f L spin s None reality = Ok flm -> harmonic L spin flm) ->
  (scal_bandlimit L J_min lam true = Ok 1 -> one_pixel_inverse O spin s None reality) ->
  ssht_analysis O f L N J_min lam spin s reality (Some (psi, phi))
  = analysis O f L N J_min lam spin 0 s None reality true false.
Proof.
  intros O f L N lam J_min J spin s ix reality psi phi HL HN Hlam E EJ Hix (A1 & A2 & A3 & A4) Hr Hf H1.
  pose proof (filt_J L N J_min J spin 0 lam psi phi HL ltac:(lia) Hlam (or_intror (or_introl E)) EJ) as HF.
  filt_facts HF.
  assert (Ei : ssht_sampling s = Ok ix /\ sampling_ok s None).
  { unfold ssht_index in Hix. destruct Hix as [[-> ->]|[[-> ->]|[[-> ->]|[-> ->]]]]; split; reflexivity || exact I || discriminate. }
  destruct Ei as [Ei Hs]. specialize (A1 f L spin s ix reality Hix Hr).
  rewrite (ssht_analysis_ok L N J_min J lam HL HN Hlam EJ ltac:(lia) O f spin s reality psi phi ix); auto; try lia.
  2:{ rewrite A1. intros flm Ef. eapply harm_sh; eauto. }
  rewrite (analysis_ok L N J_min J lam true HL HN Hlam EJ ltac:(lia) O f spin s None reality false psi phi);
    auto; try lia.
  2:{ eapply known_some; eauto. }
  2:{ intros flm Ef. eapply harm_sh; eauto. }
  rewrite A1. apply bind_ext. intros flm Ef. pose proof (Hf flm Ef) as Hh.
  rewrite (scal_same O L J_min lam spin s None reality _ (fun a => c_inv O a (Ls_of L J_min lam true) spin reality ix));
    auto; try lra.
  2:{ apply (sc_is L N J_min J spin lam true psi phi HL HN Hlam HF flm false). split; [assumption|discriminate]. }
  f_equal. apply mapM_ext. intros j Hj. apply In_zrange in Hj.
  apply A4. apply (wc_is L N J_min J spin lam true psi phi HL HN Hlam HF flm j false); [lia|].
  split; [assumption|discriminate].
Qed.

(*@ C29_c_synthesis *)
Lemma eq_c_sy : forall O f_wav f_scal L N lam J_min J spin s ix (reality : bool) psi phi,
  1 <= L -> 1 <= N <= L -> (1 < lam)%R ->
  filters_directional_vectorised L N J_min lam spin 0 = Ok (psi, phi) -> j_max L lam = Ok J ->
  ssht_index s ix -> agrees_c O -> (reality = true -> nd_real f_scal = f_scal) ->
  fwd_coefs_b O spin s None reality ->
  wavelet_shape_check f_wav f_scal L N J_min lam s None true = Ok tt ->
  ssht_synthesis O f_wav f_scal L N J_min lam spin s reality (Some (psi, phi))
  = synthesis O f_wav f_scal L N J_min lam spin 0 s None reality true.
Proof.
  intros O f_wav f_scal L N lam J_min J spin s ix reality psi phi HL HN Hlam E EJ Hix (A1 & A2 & A3 & A4) Hr Hc Hch.
  pose proof (filt_J L N J_min J spin 0 lam psi phi HL ltac:(lia) Hlam (or_intror (or_introl E)) EJ) as HF.
  filt_facts HF. pose proof Hc as [C1 C2].
  assert (Ei : ssht_sampling s = Ok ix).
  { unfold ssht_index in Hix. destruct Hix as [[-> ->]|[[-> ->]|[[-> ->]|[-> ->]]]]; reflexivity. }
  assert (Es : (if reality then nd_real f_scal else f_scal) = f_scal) by (destruct reality; auto).
  specialize (A1 f_scal (Ls_of L J_min lam true) spin s ix reality Hix Hr).
  rewrite (ssht_synthesis_ok L N J_min J lam HL HN Hlam EJ ltac:(lia) O f_wav f_scal spin s reality psi phi ix);
    auto; try lia.
  2:{ rewrite Es, A1. intros S ES. eapply harm_sh; eauto. }
  2:{ intros j fj T Hj Efj. apply (same_shape (L0_of j lam true) _ _ _ _ _ (A3 fj _ _ _ s reality)).
      intros b Eb. eapply wig_sh; eauto. }
  rewrite (synthesis_ok L N J_min J lam true HL HN Hlam EJ ltac:(lia) O f_wav f_scal spin s None reality psi phi);
    auto; try lia.
  2:{ intros S ES. eapply harm_sh; eauto. }
  2:{ intros j fj T Hj _ ET. eapply wig_sh; eauto. }
  rewrite Hch, Es. cbn [bind]. rewrite A1. apply bind_ext. intros S ES.
  apply (syn_tail L N J_min J lam true spin psi phi O f_wav s None reality S _
    (fun a => c_inv O a L spin reality ix)); auto; eauto.
  intros j Hj. apply same_bind. intros fj Efj. apply A3.
Qed.

(*@E C29_example *)
Lemma ex_c29 : exists psi phi pa ps qa qs f w sc, filters_directional_vectorised 5 3 0 2 0 0 = Ok (psi, phi) /\ j_max 5 2 = Ok 3 /\
  agrees_j demo /\ agrees_p demo /\ agrees_t demo /\ agrees_c demo /\ ssht_index MW 0 /\ sampling_known MW None /\
  fwd_coefs_b demo 0 MW None true /\ scal_bandlimit 5 0 2 true = Ok 1 /\ one_pixel_inverse demo 0 MW None true /\
  generate_full_precomputes 5 3 0 2 MW None false true false = Ok pa /\
  generate_full_precomputes 5 3 0 2 MW None true true false = Ok ps /\
  generate_wigner_precomputes 5 3 0 2 MW None false true = Ok qa /\
  generate_wigner_precomputes 5 3 0 2 MW None true true = Ok qs /\
  nd_real f = f /\ b_inv demo (demo_flm 5) 5 0 MW None true = Ok f /\
  analysis demo f 5 3 0 2 0 0 MW None true true false = Ok (w, sc) /\
  wavelet_shape_check w sc 5 3 0 2 MW None true = Ok tt.
Proof.
  destruct (v5 3 0 ltac:(lia) ltac:(lia)) as (psi & phi & E & T & _).
  destruct (f5 MW true ltac:(now left)) as (f & Ef).
  destruct (rt_vec demo f (demo_flm 5) 5 3 2 0 3 0 MW None true true psi phi) as (w & sc & A & _); try demo_step.
  assert (Hc : wavelet_shape_check w sc 5 3 0 2 MW None true = Ok tt).
  { apply (accepted_vec demo f 5 3 2 0 3 0 MW None true true false); try demo_step. }
  assert (Hr : nd_real f = f).
  { apply (demo_real 0 (demo_flm 5) 5 f); try demo_step. apply (demo_flm_ok 5 true). reflexivity. }
  exists psi, phi. do 4 eexists. exists f, w, sc. demo_all.
Qed.

(*% ** C30: linearity *)

Lemma Cz2 a b : Cplus (Cmult a (RtoC 0)) (Cmult b (RtoC 0)) = RtoC 0. Proof. ring. Qed.

(*@ C30_wavelet_coefficients_linear *)
Lemma wc_lin : forall L psi flm glm sz j a b,
  wcoefs L psi (lin2 a b flm glm) sz j = lin3 a b (wcoefs L psi flm sz j) (wcoefs L psi glm sz j).
Proof.
  intros L psi flm glm sz j a b. unfold wcoefs. destruct (sz j) as [[Lj Nj] L0j].
  unfold wavelet_coefs, lin3, mk3. cbn [dim0 dim1 dim2 get3 lin2 get2]. f_equal.
  apply functional_extensionality; intros x. apply functional_extensionality; intros y.
  apply functional_extensionality; intros z. cbv zeta.
  destruct (_ && _ && _); [|symmetry; apply Cz2]. destruct (_ && _); [|symmetry; apply Cz2]. ring.
Qed.
(*@ C30_scaling_coefficients_linear *)
Lemma sc_lin : forall L phi flm glm Ls a b,
  scaling_coefs L phi (lin2 a b flm glm) Ls = lin2 a b (scaling_coefs L phi flm Ls) (scaling_coefs L phi glm Ls).
Proof.
  intros L phi flm glm Ls a b. unfold scaling_coefs, lin2, mk2. cbn [rows cols get2]. f_equal.
  apply functional_extensionality; intros x. apply functional_extensionality; intros y. cbv zeta.
  destruct (_ && _); [ring|symmetry; apply Cz2].
Qed.
(*@ C30_synthesised_coefficients_linear *)
Lemma syn_lin : forall L J_min J psi phi sz W V Ls S T a b,
  synthesised L J_min J psi phi sz (fun j => lin3 a b (W j) (V j)) Ls (lin2 a b S T)
  = lin2 a b (synthesised L J_min J psi phi sz W Ls S) (synthesised L J_min J psi phi sz V Ls T).
Proof.
  intros L J_min J psi phi sz W V Ls S T a b. unfold synthesised, lin2 at 2, mk2. cbn [rows cols get2]. f_equal.
  apply functional_extensionality; intros l. apply functional_extensionality; intros q. cbv zeta.
  destruct (_ && _); [|symmetry; apply Cz2]. set (m := q - (L - 1)).
  rewrite (csumZ_ext _ _ _ (fun j => Cplus
    (Cmult a (let '(Lj, Nj, L0j) := sz j in wavelet_part L psi j Lj Nj L0j (W j) l m))
    (Cmult b (let '(Lj, Nj, L0j) := sz j in wavelet_part L psi j Lj Nj L0j (V j) l m)))).
  - rewrite csumZ_plus, !csumZ_mul. unfold scaling_part. cbn [lin2 get2]. destruct (_ && _); ring.
  - intros j _. destruct (sz j) as [[Lj Nj] L0j]. unfold wavelet_part. destruct (_ && _ && _); [|ring].
    rewrite <- !csumZ_mul, <- csumZ_plus. apply csumZ_ext. intros n _. cbn [lin3 get3]. destruct (Z.even _); ring.
Qed.

Lemma mapM_lin {X A} (lin : A -> A -> A) (f g h : X -> res A) l ys zs :
  (forall x y z, In x l -> f x = Ok y -> g x = Ok z -> h x = Ok (lin y z)) ->
  mapM f l = Ok ys -> mapM g l = Ok zs ->
  mapM h l = Ok (map (fun p => lin (fst p) (snd p)) (combine ys zs)).
Proof.
  revert ys zs. induction l as [|x l IH]; cbn [mapM]; intros ys zs H E1 E2.
  - apply Ok_inj in E1, E2. subst. reflexivity.
  - apply bind_inv in E1 as (y & Ey & E1). apply bind_inv in E1 as (ys' & Eys & E1). apply Ok_inj in E1. subst ys.
    apply bind_inv in E2 as (z & Ez & E2). apply bind_inv in E2 as (zs' & Ezs & E2). apply Ok_inj in E2. subst zs.
    rewrite (H x y z) by (auto; now left). cbn [bind].
    rewrite (IH ys' zs') by (auto; intros; apply H; auto; now right). reflexivity.
Qed.

(*@ C30_analysis_linear *)
Lemma an_lin : forall O L N lam J_min J spin s nside reality mr,
  1 <= L -> 1 <= N <= L -> (1 < lam)%R -> j_max L lam = Ok J -> 0 <= J_min < J ->
  sampling_known s nside -> fwd_shapes_b O spin s nside reality -> linear_b O spin s nside reality ->
  linear (scalar reality) nshape lin_nd (fun a b x y => (lin_list a b (fst x) (fst y), lin_nd a b (snd x) (snd y)))
    (fun f => analysis O f L N J_min lam spin 0 s nside reality mr false).
Proof.
  intros O L N lam J_min J spin s nside reality mr HL HN Hlam EJ HJ Hs Hsh (L1 & L2 & L3 & L4) a b f g [w sc] [w' sc'] Ha Hb Hfg E1 E2.
  destruct (valid_range L N lam J J_min spin 0 HL ltac:(lia) Hlam EJ HJ) as (_ & _ & _ & _ & (psi & phi & E & _) & _).
  pose proof (fun f => analysis_coefs O f L N lam J_min J spin s nside reality mr false psi phi (szf L N lam mr) (Ls_of L J_min lam mr)
     HL HN Hlam E EJ Hs Hsh ltac:(intros; apply LN_j_ok; lra) ltac:(apply scal_bandlimit_ok; lra)) as AN.
  rewrite AN in *. clear AN.
  apply bind_inv in E1 as (flm & Ef & E1). apply bind_inv in E1 as (w1 & Ew & E1).
  apply bind_inv in E1 as (sc1 & Es & E1). apply Ok_inj in E1. apply pair_equal_spec in E1 as [-> ->].
  apply bind_inv in E2 as (glm & Eg & E2). apply bind_inv in E2 as (v1 & Ev & E2).
  apply bind_inv in E2 as (tc1 & Et & E2). apply Ok_inj in E2. apply pair_equal_spec in E2 as [-> ->].
  rewrite (L1 L a b f g flm glm Ha Hb Hfg Ef Eg). cbn [bind].
  assert (M : mapM (fun j => let '(Lj, Nj, L0j) := szf L N lam mr j in
      b_winv O (wcoefs L psi (lin2 a b flm glm) (szf L N lam mr) j) Lj Nj L0j s reality nside) (zrange J_min (J + 1))
      = Ok (lin_list a b w w')).
  { refine (mapM_lin (lin_nd a b) _ _ _ _ _ _ _ Ew Ev). intros x y z _ A B. destruct (szf L N lam mr x) as [[Lx Nx] L0x] eqn:Esz.
    cbn beta iota in *. rewrite wc_lin. apply (L4 Lx Nx L0x a b); auto. }
  rewrite M. cbn [bind]. rewrite sc_lin. pose proof (fun H => L2 _ a b _ _ _ _ Ha Hb H Es Et) as R.
  cbn beta in R. rewrite (R eq_refl). reflexivity.
Qed.

Lemma lrd_shape (w v : list nd) i : map nshape w = map nshape v ->
  (a <- lrd w i ;; Ok (nshape a)) = (a <- lrd v i ;; Ok (nshape a)).
Proof.
  intros H. assert (Hn : length w = length v) by (rewrite <- (map_length nshape w), H; apply map_length).
  unfold lrd. rewrite Hn. destruct (idx _ _); cbn [bind]; [|reflexivity].
  match goal with |- context [nth_error w ?k] => assert (Hk := f_equal (fun l => nth_error l k) H); cbn beta in Hk end.
  rewrite !nth_error_map in Hk. destruct (nth_error w _), (nth_error v _); cbn in *; congruence.
Qed.
(** the shape check only looks at shapes *)
Lemma check_shapes w v f g L N J_min lam s nside mr : map nshape w = map nshape v -> nshape f = nshape g ->
  wavelet_shape_check w f L N J_min lam s nside mr = wavelet_shape_check v g L N J_min lam s nside mr.
Proof.
  intros H Hf. unfold wavelet_shape_check. rewrite Hf.
  assert (Hn : length w = length v) by (rewrite <- (map_length nshape w), H; apply map_length). rewrite Hn.
  destruct (n_wav_scales _ _ _ _); cbn [bind]; [|reflexivity]. destruct (guard _ _); cbn [bind]; [|reflexivity].
  destruct (f_scal _ _ _ _ _ _); cbn [bind]; [|reflexivity]. destruct (guard _ _); cbn [bind]; [|reflexivity].
  destruct (j_max _ _); cbn [bind]; [|reflexivity]. apply for_ext. intros j u _.
  pose proof (lrd_shape w v (j - J_min) H) as E.
  destruct (lrd w _), (lrd v _); cbn [bind] in *; congruence || (apply Ok_inj in E; rewrite E; reflexivity).
Qed.

Lemma lin_list_shapes a b w v : length w = length v -> map nshape (lin_list a b w v) = map nshape w.
Proof.
  revert v. induction w as [|x w IH]; intros [|y v]; simpl; intros H; try discriminate; auto. f_equal. apply IH. lia.
Qed.
Lemma lrd_combine (w v : list nd) a b i x y : length w = length v -> lrd w i = Ok x -> lrd v i = Ok y ->
  lrd (lin_list a b w v) i = Ok (lin_nd a b x y).
Proof.
  intros H E1 E2. unfold lin_list, lrd in *.
  assert (Hl : length (map (fun p => lin_nd a b (fst p) (snd p)) (combine w v)) = length w)
    by (rewrite map_length, combine_length; lia).
  rewrite Hl. rewrite <- H in E2. destruct (idx _ _); cbn [bind] in *; [|discriminate].
  match goal with |- context [nth_error _ ?k] => set (n := k) in * end. clearbody n. clear Hl.
  rewrite nth_error_map. revert n v H E1 E2. induction w as [|p w IH]; intros n [|q v] H E1 E2; simpl in H; try discriminate.
  - destruct n; discriminate.
  - destruct n; cbn in *; [congruence|]. apply IH; auto.
Qed.

(*@ C30_synthesis_linear *)
Lemma syn_linear : forall O L N lam J_min J spin s nside reality mr,
  1 <= L -> 1 <= N <= L -> (1 < lam)%R -> j_max L lam = Ok J -> 0 <= J_min < J ->
  fwd_shapes_b O spin s nside reality -> linear_b O spin s nside reality ->
  linear (scalar reality) (fun p => (map nshape (fst p), nshape (snd p)))
    (fun a b x y => (lin_list a b (fst x) (fst y), lin_nd a b (snd x) (snd y))) lin_nd
    (fun p => synthesis O (fst p) (snd p) L N J_min lam spin 0 s nside reality mr).
Proof.
  intros O L N lam J_min J spin s nside reality mr HL HN Hlam EJ HJ Hsh (L1 & L2 & L3 & L4) a b [w f] [v g] x y Ha Hb Hfg E1 E2.
  cbn [fst snd] in *. apply pair_equal_spec in Hfg as [Hwv Hfg].
  assert (Hn : length w = length v) by (rewrite <- (map_length nshape w), Hwv; apply map_length).
  destruct (valid_range L N lam J J_min spin 0 HL ltac:(lia) Hlam EJ HJ) as (_ & _ & _ & _ & (psi & phi & E & _) & _).
  pose proof (fun w f => synthesis_coefs O w f L N lam J_min J spin s nside reality mr psi phi (szf L N lam mr) (Ls_of L J_min lam mr)
     HL HN Hlam E EJ Hsh ltac:(intros; apply LN_j_ok; lra) ltac:(apply scal_bandlimit_ok; lra)) as SN.
  rewrite SN in *. clear SN.
  rewrite (check_shapes (lin_list a b w v) w (lin_nd a b f g) f) by (auto using lin_list_shapes).
  apply bind_inv in E1 as ([] & EC & E1). apply bind_inv in E1 as (S & ES & E1). apply bind_inv in E1 as (Ws & EW & E1).
  apply bind_inv in E2 as ([] & _ & E2). apply bind_inv in E2 as (T & ET & E2). apply bind_inv in E2 as (Vs & EV & E2).
  rewrite EC. cbn [bind]. rewrite (L1 _ a b f g S T Ha Hb Hfg ES ET). cbn [bind].
  assert (M : mapM (fun j => let '(Lj, Nj, L0j) := szf L N lam mr j in
      fj <- lrd (lin_list a b w v) (j - J_min) ;; b_wfwd O fj Lj Nj L0j s reality nside) (zrange J_min (J + 1))
      = Ok (map (fun p => lin3 a b (fst p) (snd p)) (combine Ws Vs))).
  { refine (mapM_lin (lin3 a b) _ _ _ _ _ _ _ EW EV). intros j p q _ A B. destruct (szf L N lam mr j) as [[Lx Nx] L0x] eqn:Esz.
    cbn beta iota in *. apply bind_inv in A as (fj & Efj & A). apply bind_inv in B as (gj & Egj & B).
    rewrite (lrd_combine w v a b (j - J_min) fj gj) by auto. cbn [bind]. apply (L3 Lx Nx L0x a b _ _ _ _); auto.
    pose proof (lrd_shape w v (j - J_min) Hwv) as Esh. rewrite Efj, Egj in Esh. now apply Ok_inj in Esh. }
  rewrite M. cbn [bind]. apply mapM_inv in EW as [LW _]. apply mapM_inv in EV as [LV _].
  pose proof (fun H => L2 L a b _ _ _ _ Ha Hb H E1 E2) as R. cbn beta in R. rewrite <- (R eq_refl), <- syn_lin. f_equal. f_equal.
  apply functional_extensionality. intros j. set (d := mk3 0 0 0 (fun _ _ _ => RtoC 0)).
  assert (Hd : d = lin3 a b d d).
  { unfold d, lin3, mk3. cbn [dim0 dim1 dim2 get3]. f_equal. do 3 (apply functional_extensionality; intros).
    destruct (_ && _ && _); symmetry; apply Cz2. }
  rewrite Hd at 1. rewrite (map_nth (fun p => lin3 a b (fst p) (snd p)) (combine Ws Vs) (d, d)).
  rewrite combine_nth by congruence. reflexivity.
Qed.

(*% scalars 2 and -1: real, as the reality flag requires *)
(*@E C30_example *)
Lemma ex_c30 : j_max 5 2 = Ok 3 /\ sampling_known MW None /\ fwd_shapes_b demo 0 MW None true /\
  linear_b demo 0 MW None true /\ scalar true (RtoC 2) /\ scalar true (RtoC (-1)) /\
  exists f w sc, analysis demo f 5 3 1 2 0 0 MW None true true false = Ok (w, sc).
Proof.
  do 4 (split; [demo_step|]). split; [now intros _|]. split; [now intros _|].
  destruct ex_c07 as (f & w & sc & w' & sc' & H). exists f, w, sc. tauto.
Qed.
