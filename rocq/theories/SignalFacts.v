(** * Facts about the transforms observed from outside *)

From Coq Require Import ZArith Reals List Bool Lia Lra FunctionalExtensionality.
From Coquelicot Require Import Rcomplements Complex.
From Verif Require Import Py PyFacts ModelSamples SamplesFacts ModelFilters ModelTransforms Spec SpecTransforms
  FiltersFacts AxisymFacts DirectionFacts DirFilterFacts FiltersProps TransformsFacts BackendFacts LoopFacts
  ReconFacts RoundFacts Demo TransformsProps FrameProps SpecSteer SteerProps SpecSignal.
Import ListNotations.
Open Scope Z_scope.

(** ** Sums *)

Lemma csumZ_swap lo hi lo' hi' f :
  csumZ lo hi (fun i => csumZ lo' hi' (fun j => f i j)) = csumZ lo' hi' (fun j => csumZ lo hi (fun i => f i j)).
Proof.
  rewrite !csumZ_parts. f_equal.
  - rewrite (sumZ_ext _ _ _ (fun i => sumZ lo' hi' (fun j => fst (f i j)))) by (intros; now rewrite csumZ_parts).
    rewrite sumZ_swap. apply sumZ_ext. intros. now rewrite csumZ_parts.
  - rewrite (sumZ_ext _ _ _ (fun i => sumZ lo' hi' (fun j => snd (f i j)))) by (intros; now rewrite csumZ_parts).
    rewrite sumZ_swap. apply sumZ_ext. intros. now rewrite csumZ_parts.
Qed.
Lemma sumZ_opp lo hi f : sumZ lo hi (fun i => - f i)%R = (- sumZ lo hi f)%R.
Proof. rewrite (sumZ_ext _ _ _ (fun i => -1 * f i)%R) by (intros; ring). rewrite sumZ_mul. ring. Qed.
Lemma csumZ_conj lo hi f : Cconj (csumZ lo hi f) = csumZ lo hi (fun i => Cconj (f i)).
Proof. rewrite !csumZ_parts. unfold Cconj. cbn [fst snd]. now rewrite sumZ_opp. Qed.
Lemma csumZ_rev n f : csumZ (- n + 1) n f = csumZ (- n + 1) n (fun i => f (- i)).
Proof.
  destruct (Z_le_dec n 0) as [H|H]; [now rewrite !csumZ_nil by lia|].
  replace n with (n - 1 + 1) by lia. set (k := n - 1). replace (- (k + 1) + 1) with (- k) by lia.
  assert (Hk : 0 <= k) by lia. clearbody k. clear H n. revert k Hk.
  apply natlike_ind.
  - now rewrite !(csumZ_S 0 0), !csumZ_nil by lia.
  - intros k Hk IH. replace (- Z.succ k) with (- k - 1) by lia. replace (Z.succ k + 1) with (k + 1 + 1) by lia.
    assert (X : forall f, csumZ (- k - 1) (k + 1 + 1) f = Cplus (Cplus (f (- k - 1)) (csumZ (- k) (k + 1) f)) (f (k + 1))).
    { intros h. rewrite csumZ_S by lia. f_equal. rewrite (csumZ_split _ (- k)) by lia. f_equal.
      transitivity (csumZ (- k - 1) (- k - 1 + 1) h); [f_equal; lia|]. rewrite csumZ_S, csumZ_nil by lia. ring. }
    rewrite !X.
    rewrite IH. replace (- (- k - 1)) with (k + 1) by lia. replace (- (k + 1)) with (- k - 1) by lia. ring.
Qed.
Lemma Cplus_conj x y : Cconj (Cplus x y) = Cplus (Cconj x) (Cconj y).
Proof. destruct x, y. apply injective_projections; simpl; ring. Qed.
Lemma fst_csumZ lo hi f : fst (csumZ lo hi f) = sumZ lo hi (fun i => fst (f i)).
Proof. now rewrite csumZ_parts. Qed.

Lemma get2_out {A} `{Zeroed A} n m f i j : ~ (0 <= i < n /\ 0 <= j < m) -> get2 (mk2 n m f) i j = zero.
Proof.
  simpl. destruct (inb n i) eqn:E1; cbn [andb]; [|auto].
  destruct (inb m j) eqn:E2; [|auto]. rewrite inb_true in *. tauto.
Qed.
Lemma get3_out {A} `{Zeroed A} n m p f i j k : ~ (0 <= i < n /\ 0 <= j < m /\ 0 <= k < p) ->
  get3 (mk3 n m p f) i j k = zero.
Proof.
  simpl. destruct (inb n i) eqn:E1; cbn [andb]; [|auto].
  destruct (inb m j) eqn:E2; cbn [andb]; [|auto].
  destruct (inb p k) eqn:E3; [|auto]. rewrite inb_true in *. tauto.
Qed.

(** ** Measured coefficients *)

Lemma measured_fun O L N J_min J lam spin s nside reality mr w sc W S W' S' :
  measured O L N J_min J lam spin s nside reality mr w sc W S ->
  measured O L N J_min J lam spin s nside reality mr w sc W' S' ->
  S = S' /\ forall j, J_min <= j <= J -> W j = W' j.
Proof.
  intros (_ & (Ls & A1 & _ & A2 & _) & A3) (_ & (Ls' & B1 & _ & B2 & _) & B3). split.
  - rewrite A1 in B1. apply Ok_inj in B1. subst Ls'. rewrite A2 in B2. now apply Ok_inj in B2.
  - intros j Hj. destruct (A3 j Hj) as (Lj & Nj & L0 & y & E1 & E2 & _ & E3 & _).
    destruct (B3 j Hj) as (Lj' & Nj' & L0' & y' & F1 & F2 & _ & F3 & _). congruence.
Qed.

Section Sig.
Variables (L N J_min J spin : Z) (lam : R) (mr : bool).
Hypothesis HL : 1 <= L.
Hypothesis HN : 1 <= N <= L.
Hypothesis Hlam : (1 < lam)%R.
Variables (psi : arr3 C) (phi : arr1 R).
Hypothesis HF : filt L N J_min J spin lam psi phi.
Notation Lj j := (Lj_of L j lam mr).
Notation Nj j := (Nj_of L j N lam mr).
Notation L0 j := (L0_of j lam mr).
Notation Ls := (Ls_of L J_min lam mr).
Notation EJ := (f_J _ _ _ _ _ _ _ _ HF).
Notation HJ := (f_range _ _ _ _ _ _ _ _ HF).
Notation wcf := (wc L N lam mr psi).
Notation scf flm := (scaling_coefs L phi flm Ls).
Notation sy W S := (synthesised L J_min J psi phi (szf L N lam mr) W Ls S).
Notation wsz j := (sizes L N J_min J spin lam mr psi phi HL HN Hlam HF j).

(** W, S have the shape of the coefficients of a decomposition *)
Definition deco (reality : bool) (W : Z -> arr3 C) (S : arr2 C) : Prop :=
  is_harmonic Ls spin reality S /\ forall j, J_min <= j <= J -> is_wigner (Lj j) (Nj j) (L0 j) reality (W j).

Lemma sy_syn W S : sy W S = syn L N J_min J lam mr psi phi (map W (zrange J_min (J + 1))) S.
Proof.
  unfold syn, synthesised. apply mk2_ext. intros l q Hl Hq. cbv zeta. f_equal. apply csumZ_ext. intros j Hj.
  unfold szf. rewrite Tnth_map by lia. reflexivity.
Qed.
Lemma sy_ext W W' S : (forall j, J_min <= j <= J -> W j = W' j) -> sy W S = sy W' S.
Proof.
  intros H. unfold synthesised. apply mk2_ext. intros l q Hl Hq. cbv zeta. f_equal. apply csumZ_ext. intros j Hj.
  unfold szf. now rewrite H by lia.
Qed.
Lemma sy_harm reality W S : deco reality W S -> harmonic L spin (sy W S).
Proof.
  intros ((S1 & _) & W1). rewrite sy_syn. pose proof HJ.
  apply (syn_harmonic L N J_min J spin lam mr HL HN Hlam EJ); auto; try lia.
  - apply (f_psi_supp _ _ _ _ _ _ _ _ HF).
  - intros j Hj. rewrite Tnth_map by lia. apply (W1 j Hj).
Qed.

Lemma sign_sq m : (sign_of m * sign_of m = 1)%R.
Proof.
  unfold sign_of. rewrite <- powerRZ_mult by lra. replace (-1 * -1)%R with 1%R by ring.
  destruct m; cbn [powerRZ]; rewrite ?pow1; field.
Qed.
Lemma wpart_real W j l m : 0 <= j <= J -> 0 <= l < L -> real_wigner (Lj j) (Nj j) W ->
  wavelet_part L psi j (Lj j) (Nj j) (L0 j) W l (- m)
  = Cmult (RtoC (sign_of m)) (Cconj (wavelet_part L psi j (Lj j) (Nj j) (L0 j) W l m)).
Proof.
  intros Hj Hl HW. destruct (wsz j Hj) as (Z1 & Z2 & Z3 & Z4). unfold wavelet_part. rewrite Z.abs_opp.
  destruct (_ && _); [|rewrite Cconj_0; ring]. rewrite csumZ_rev, csumZ_conj, <- csumZ_mul.
  apply csumZ_ext. intros n Hn. rewrite even_opp_shift. destruct (Z.even _); [|rewrite Cconj_0; ring].
  replace (Nj j - 1 + - n) with (Nj j - 1 - n) by lia. replace (Lj j - 1 + - m) with (Lj j - 1 - m) by lia.
  replace (L - 1 + - n) with (L - 1 - n) by lia.
  rewrite HW, (f_conj _ _ _ _ _ _ _ _ HF) by lia. rewrite sign_plus, RtoC_mult, !Cmult_conj.
  transitivity (Cmult (RtoC (sign_of n * sign_of n)) (Cmult (RtoC (sign_of m))
    (Cmult (Cconj (get3 W (Nj j - 1 + n) l (Lj j - 1 + m))) (Cconj (get3 psi j l (L - 1 + n)))))).
  { rewrite RtoC_mult. ring. } rewrite sign_sq. ring.
Qed.
Lemma sy_real W S : real_harmonic Ls S -> (forall j, J_min <= j <= J -> real_wigner (Lj j) (Nj j) (W j)) ->
  real_harmonic L (sy W S).
Proof.
  intros HS HW l m. unfold synthesised. pose proof HJ.
  destruct (Z_lt_le_dec (Z.abs m) L) as [Hm|Hm].
  2:{ rewrite !get2_out by lia. change (@zero C _) with (RtoC 0). rewrite Cconj_0. ring. }
  destruct (Z_lt_le_dec l 0) as [Hl|Hl].
  { rewrite !get2_out by lia. change (@zero C _) with (RtoC 0). rewrite Cconj_0. ring. }
  destruct (Z_lt_le_dec l L) as [Hl'|Hl'].
  2:{ rewrite !get2_out by lia. change (@zero C _) with (RtoC 0). rewrite Cconj_0. ring. }
  rewrite !get2_mk by lia. cbv zeta.
  replace (L - 1 - m - (L - 1)) with (- m) by lia. replace (L - 1 + m - (L - 1)) with m by lia.
  rewrite Cplus_conj, csumZ_conj, Cmult_plus_distr_l, <- csumZ_mul. f_equal.
  - apply csumZ_ext. intros j Hj. unfold szf. apply wpart_real; try lia. apply HW. lia.
  - unfold scaling_part. rewrite Z.abs_opp. destruct (_ && _); [|rewrite Cconj_0; ring].
    replace (Ls - 1 + - m) with (Ls - 1 - m) by lia. rewrite HS, !Cmult_conj, !Cconj_RtoC. ring.
Qed.
Lemma sy_is reality W S : deco reality W S -> is_harmonic L spin reality (sy W S).
Proof.
  intros H. split; [eapply sy_harm; eauto|]. destruct H as ((_ & S2) & W1). intros Hr. apply sy_real; auto.
  intros j Hj. now apply (W1 j Hj).
Qed.

Lemma deco_of O s nside reality w sc W S : measured O L N J_min J lam spin s nside reality mr w sc W S ->
  deco reality W S.
Proof.
  intros (_ & (Ls' & A1 & _ & _ & A2) & A3). rewrite (Ls_eq L J_min lam mr Ls' ltac:(lra) A1) in *. split; auto.
  intros j Hj. destruct (A3 j Hj) as (a & b & c & y & E1 & _ & _ & _ & E2).
  rewrite LN_j_ok in E1 by lra. apply Ok_inj in E1. injection E1 as <- <- <-. exact E2.
Qed.
Lemma deco_an reality flm : is_harmonic L spin reality flm -> deco reality (wcf flm) (scf flm).
Proof.
  intros H. pose proof HJ. split.
  - apply (sc_is L N J_min J spin lam mr psi phi HL HN Hlam HF flm reality H).
  - intros j Hj. apply (wc_is L N J_min J spin lam mr psi phi HL HN Hlam HF flm j reality); [lia|exact H].
Qed.

Lemma map_Some_inj {A} (x y : list A) : map Some x = map Some y -> x = y.
Proof. revert y. induction x; intros [|b y] E; try discriminate; [reflexivity|]. injection E as -> E. f_equal. auto. Qed.

Section Maps.
Variables (b : impl) (P : s2fft) (s : sampling) (nside : option Z) (reality : bool).
Hypothesis HE : exact_lib b P L J_min lam spin s nside reality.
Notation O := (lib_of b P).
Notation HX := (proj1 HE).

(** what both analyses return *)
Definition maps_of (flm : arr2 C) (w : list nd) (sc : nd) : Prop :=
  mapM (fun j => b_winv O (wcf flm j) (Lj j) (Nj j) (L0 j) s reality nside) (zrange J_min (J + 1)) = Ok w /\
  b_inv O (scf flm) Ls spin s nside reality = Ok sc.

Lemma maps_measured flm w sc : is_harmonic L spin reality flm -> maps_of flm w sc ->
  measured O L N J_min J lam spin s nside reality mr w sc (wcf flm) (scf flm).
Proof.
  intros Hh (Ew & Es). destruct HX as (X1 & X2). pose proof HJ. destruct (deco_an reality flm Hh) as (D1 & D2).
  pose proof (Ls_range L J_min lam mr HL ltac:(lra)).
  destruct (mapM_inv _ _ _ Ew) as [Hlen Hn]. rewrite zrange_length in Hlen. split; [lia|]. split.
  - exists Ls. rewrite scal_bandlimit_ok by lra. split; auto.
    destruct (X1 Ls ltac:(lia) _ D1) as (y & E1 & E2 & E3). assert (y = sc) as -> by congruence. auto.
  - intros j Hj. exists (Lj j), (Nj j), (L0 j). destruct (wsz j ltac:(lia)) as (Z1 & Z2 & Z3 & Z4).
    destruct (Hn (Z.to_nat (j - J_min)) j) as (y & Ey & En).
    { rewrite nth_error_zrange by lia. f_equal. lia. }
    exists y. split; [now rewrite LN_j_ok by lra|]. split; [exact En|].
    destruct (X2 (Lj j) (Nj j) (L0 j) ltac:(lia) ltac:(lia) ltac:(lia) _ (D2 j Hj)) as (y' & E1 & E2 & E3).
    assert (y' = y) as -> by congruence. auto.
Qed.
Lemma fwd_of flm f : is_harmonic L spin reality flm -> b_inv O flm L spin s nside reality = Ok f ->
  b_fwd O f L spin s nside reality = Ok flm.
Proof. intros Hh Ef. destruct (proj1 HX L HL flm Hh) as (f' & E1 & _ & E2). congruence. Qed.

(** without the sampling theorem *)
Definition one_pixel_lib : Prop := b <> Base -> scal_bandlimit L J_min lam true = Ok 1 -> forall a, is_harmonic 1 spin reality a ->
  b_inv O a 1 spin s nside reality = Ok (constant_field a).
Lemma analysed_maps0 spin0 f flm w sc : sampling_known s nside -> one_pixel_lib -> is_harmonic L spin reality flm ->
  b_fwd O f L spin s nside reality = Ok flm ->
  analysed b P f L N J_min lam spin spin0 s nside reality mr psi phi w sc -> maps_of flm w sc.
Proof.
  clear HE. intros Hs H1 Hh Eb A. unfold one_pixel_lib in H1. filt_facts HF.
  assert (Hsh : forall flm', b_fwd O f L spin s nside reality = Ok flm' -> flm_sh L flm').
  { intros flm' E. rewrite Eb in E. apply Ok_inj in E. subst. eapply harm_sh, Hh. }
  pose proof (sc_is L N J_min J spin lam mr psi phi HL HN Hlam HF flm reality Hh) as Hsc.
  assert (Hone : b <> Base -> mr = true -> forall inv : res nd, inv = b_inv O (scf flm) Ls spin s nside reality ->
    (if Ls_of L J_min lam true =? 1 then Ok (one_pixel (scf flm)) else inv) = b_inv O (scf flm) Ls spin s nside reality).
  { intros Hb Hm inv ->. subst mr. destruct (Z.eqb_spec (Ls_of L J_min lam true) 1) as [E1|_]; [|reflexivity].
    specialize (H1 Hb). rewrite scal_bandlimit_ok in H1 by lra. rewrite E1 in *. specialize (H1 eq_refl _ Hsc).
    rewrite H1. f_equal. eapply harmonic_1, Hsc. }
  clear H1. unfold maps_of. destruct b.
  - change (lib_of Base P) with P in *. destruct A as [(E & A)|(E & A)].
    * destruct (Z.eq_dec spin0 0) as [->|Hn]; [|rewrite spin_fail_vec in E by assumption; discriminate].
      rewrite (analysis_ok L N J_min J lam mr HL HN Hlam EJ0 ltac:(lia) P f spin s nside reality false psi phi) in A; auto; try lia.
      2:{ eapply known_some; eauto. }
      rewrite Eb in A. cbn [bind] in A. apply bind_inv in A as (w0 & Ew & A). apply bind_inv in A as (sc0 & Es & A).
      apply Ok_inj in A. apply pair_equal_spec in A as [<- <-]. split; auto.
    * rewrite (analysis_looped_ok L N J_min J lam mr HL (proj1 HN) Hlam EJ0 ltac:(lia) P f spin spin0 s nside reality psi phi)
        in A; auto; try lia.
      rewrite Eb in A. cbn [bind] in A. apply bind_inv in A as (w0 & Ew & A). apply bind_inv in A as (sc0 & Es & A).
      apply Ok_inj in A. apply pair_equal_spec in A as [<- <-]. split.
      + rewrite <- Ew. symmetry. apply mapM_ext. intros j Hj. apply In_zrange in Hj. f_equal.
        rewrite <- (wloop_false L N J_min J spin lam mr psi phi HL (proj1 HN) Hlam HF flm j) by (apply Hh || lia).
        destruct reality; [|reflexivity].
        apply (wloop_true L N J_min J spin lam mr psi phi HL (proj1 HN) Hlam HF); [lia|]. now apply Hh.
      + rewrite <- Es. f_equal. rewrite <- (sloop_false L J_min spin lam mr phi HL Hlam) by apply Hh.
        destruct reality; [|reflexivity]. symmetry. apply sloop_true. now apply Hh.
  - destruct A as (_ & -> & p & q & Eq & Hp & A).
    replace (jax_analysis P f L N J_min lam spin s nside reality (Some (psi, phi)) p)
      with (jax_analysis P f L N J_min lam spin s nside reality (Some (psi, phi)) (Some q)) in A.
    2:{ destruct Hp as [->| ->]; [|reflexivity]. unfold jax_analysis. rewrite Eq. reflexivity. }
    rewrite (gen_wigner_ok L N J_min lam s nside false reality J) in Eq by (auto; lra || lia). apply Ok_inj in Eq.
    rewrite (jax_analysis_ok L N J_min J lam HL HN Hlam EJ0 ltac:(lia) P f spin s nside reality psi phi q) in A; auto; try lia.
    change (j_fwd P f L spin nside s reality) with (b_fwd (lib_of Jax P) f L spin s nside reality) in A.
    rewrite Eb in A. cbn [bind] in A. rewrite Hone in A by (discriminate || reflexivity).
    apply bind_inv in A as (w0 & Ew & A). apply bind_inv in A as (sc0 & Es & A).
    apply Ok_inj in A. apply pair_equal_spec in A as [<- <-]. split; [|exact Es].
    rewrite <- Ew. apply mapM_ext. intros j Hj. apply In_zrange in Hj. rewrite <- Eq, lrd_map by lia. reflexivity.
  - destruct A as (_ & -> & Hsp & p & Eq & A). rewrite Hsp in *.
    rewrite (gen_full_ok L N J_min lam s nside false reality false J) in Eq by (auto; lra || lia).
    cbn [negb] in Eq. apply Ok_inj in Eq. subst p.
    rewrite (pre_analysis_ok L N J_min J lam HL HN Hlam EJ0 ltac:(lia) P f 0 s nside reality psi phi) in A; auto; try lia.
    change (p_fwd P f (SKern L 0 reality s nside true) L s reality 0 nside)
      with (b_fwd (lib_of Precompute P) f L 0 s nside reality) in A.
    rewrite Eb in A. cbn [bind need] in A. rewrite Hone in A by (discriminate || reflexivity).
    apply bind_inv in A as (w0 & Ew & A). apply bind_inv in A as (sc0 & Es & A).
    apply Ok_inj in A. apply pair_equal_spec in A as [<- <-]. split; [|exact Es].
    rewrite <- Ew. apply mapM_ext. intros j Hj. apply In_zrange in Hj. rewrite wk_nth by (auto; lia). reflexivity.
  - destruct A as (_ & -> & Hsp & p & Eq & A). rewrite Hsp in *.
    rewrite (gen_full_ok L N J_min lam s nside false reality false J) in Eq by (auto; lra || lia).
    cbn [negb] in Eq. apply Ok_inj in Eq. subst p.
    rewrite (torch_analysis_ok L N J_min J lam HL HN Hlam EJ0 ltac:(lia) P f 0 s nside reality psi phi) in A; auto; try lia.
    change (t_fwd P f (SKern L 0 reality s nside true) L s reality 0 nside)
      with (b_fwd (lib_of Torch P) f L 0 s nside reality) in A.
    rewrite Eb in A. cbn [bind need] in A. rewrite Hone in A by (discriminate || reflexivity).
    apply bind_inv in A as (w0 & Ew & A). apply bind_inv in A as (sc0 & Es & A).
    apply Ok_inj in A. apply pair_equal_spec in A as [A <-]. apply map_Some_inj in A. subst w0. split; [|exact Es].
    rewrite <- Ew. apply mapM_ext. intros j Hj. apply In_zrange in Hj. rewrite wk_nth by (auto; lia). reflexivity.
  - destruct A as (_ & -> & Hns & A).
    assert (Ei : exists ix, ssht_sampling s = Ok ix /\ ix = match s with MW => 0 | MWSS => 1 | DH => 2 | _ => 3 end).
    { destruct s; try (eexists; split; reflexivity); cbn in A; discriminate. }
    destruct Ei as (ix & Ei & Eix).
    assert (Ef' : c_fwd P f L spin reality ix = Ok flm) by (rewrite Eix; exact Eb).
    rewrite (ssht_analysis_ok L N J_min J lam HL HN Hlam EJ0 ltac:(lia) P f spin s reality psi phi ix) in A; auto; try lia.
    2:{ intros flm' E. rewrite Ef' in E. apply Ok_inj in E. subst. eapply harm_sh, Hh. }
    rewrite Ef' in A. cbn [bind] in A. rewrite Hone in A by (discriminate || reflexivity || (rewrite Eix; reflexivity)).
    apply bind_inv in A as (w0 & Ew & A). apply bind_inv in A as (sc0 & Es & A).
    apply Ok_inj in A. apply pair_equal_spec in A as [<- <-]. split; [exact Ew|exact Es].
Qed.
Lemma known_lib : sampling_known s nside.
Proof. apply (inverts_known _ _ _ _ _ _ _ HL (proj1 HX L HL)). Qed.
Lemma analysed_maps spin0 f flm w sc : is_harmonic L spin reality flm ->
  b_inv O flm L spin s nside reality = Ok f ->
  analysed b P f L N J_min lam spin spin0 s nside reality mr psi phi w sc -> maps_of flm w sc.
Proof.
  intros Hh Ef A. apply (analysed_maps0 spin0 f); auto; [apply known_lib|exact (proj2 HE)|now apply fwd_of].
Qed.
Lemma analysed_coefs spin0 f flm w sc W S : is_harmonic L spin reality flm ->
  b_inv O flm L spin s nside reality = Ok f ->
  analysed b P f L N J_min lam spin spin0 s nside reality mr psi phi w sc ->
  measured O L N J_min J lam spin s nside reality mr w sc W S ->
  S = scf flm /\ forall j, J_min <= j <= J -> W j = wcf flm j.
Proof.
  intros Hh Ef A M. eapply measured_fun; [exact M|]. apply maps_measured; auto. eapply analysed_maps; eauto.
Qed.

Lemma measured_check0 w sc W S : sampling_known s nside -> measured O L N J_min J lam spin s nside reality mr w sc W S ->
  wavelet_shape_check w sc L N J_min lam s nside mr = Ok tt.
Proof.
  clear HE. intros Hs (M1 & (Ls' & A1 & A2 & _) & A3). pose proof HJ.
  rewrite (Ls_eq L J_min lam mr Ls' ltac:(lra) A1) in *.
  apply (check_intro L N J_min J); auto; try lia.
  - apply EJ.
  - intros j y Hj Hy. destruct (A3 j Hj) as (x1 & x2 & x3 & y' & E1 & E2 & E3 & _).
    rewrite LN_j_ok in E1 by lra. apply Ok_inj in E1. injection E1 as <- <- <-. congruence.
Qed.
Lemma measured_check w sc W S : measured O L N J_min J lam spin s nside reality mr w sc W S ->
  wavelet_shape_check w sc L N J_min lam s nside mr = Ok tt.
Proof. apply measured_check0. apply known_lib. Qed.
Lemma resyn_inv0 spin0 w sc W S g : sampling_known s nside -> measured O L N J_min J lam spin s nside reality mr w sc W S ->
  resynthesised b P w sc L N J_min lam spin spin0 s nside reality mr psi phi g ->
  b_inv O (sy W S) L spin s nside reality = Ok g.
Proof.
  clear HE. intros Hs M R. pose proof (measured_check0 _ _ _ _ Hs M) as Ck. pose proof (deco_of _ _ _ _ _ _ _ _ M) as D.
  destruct M as (M1 & (Ls' & A1 & A2 & A3 & A4) & A5). rewrite (Ls_eq L J_min lam mr Ls' ltac:(lra) A1) in *.
  filt_facts HF.
  assert (K : forall j, J_min <= j <= J -> exists y, lrd w (j - J_min) = Ok y /\
     b_wfwd O y (Lj j) (Nj j) (L0 j) s reality nside = Ok (W j)).
  { intros j Hj. destruct (A5 j Hj) as (x1 & x2 & x3 & y & E1 & E2 & _ & E3 & _).
    rewrite LN_j_ok in E1 by lra. apply Ok_inj in E1. injection E1 as <- <- <-. exists y. split; auto.
    apply lrd_nth; [lia|exact E2]. }
  assert (ET : mapM (fun j => fj <- lrd w (j - J_min) ;; b_wfwd O fj (Lj j) (Nj j) (L0 j) s reality nside)
     (zrange J_min (J + 1)) = Ok (map W (zrange J_min (J + 1)))).
  { apply mapM_ok. intros j Hj. apply In_zrange in Hj. destruct (K j ltac:(lia)) as (y & -> & E). exact E. }
  assert (HS : forall S', b_fwd O sc Ls spin s nside reality = Ok S' -> flm_sh Ls S').
  { intros S' E. rewrite A3 in E. apply Ok_inj in E. subst. eapply harm_sh, A4. }
  assert (HT : forall j fj T, J_min <= j <= J -> lrd w (j - J_min) = Ok fj ->
     b_wfwd O fj (Lj j) (Nj j) (L0 j) s reality nside = Ok T -> flmn_sh (Nj j) (Lj j) T).
  { intros j fj T Hj E1 E2. destruct (K j Hj) as (y & E3 & E4). assert (T = W j) as -> by congruence.
    eapply wig_sh. apply (proj2 D j Hj). }
  rewrite sy_syn. destruct b.
  - change (lib_of Base P) with P in *. destruct R as [(E & R)|(E & Hre & R)].
    * destruct (Z.eq_dec spin0 0) as [->|Hn]; [|rewrite spin_fail_vec in E by assumption; discriminate].
      rewrite (synthesis_ok L N J_min J lam mr HL HN Hlam EJ0 ltac:(lia) P w sc spin s nside reality psi phi) in R; auto; try lia.
      rewrite Ck in R. cbn [bind] in R. rewrite A3 in R. cbn [bind] in R. rewrite ET in R. exact R.
    * rewrite (synthesis_looped_ok L N J_min J lam mr HL (proj1 HN) Hlam EJ0 ltac:(lia) P w sc spin spin0 s nside reality psi phi)
        in R; auto; try lia.
      rewrite Ck in R. cbn [bind] in R. rewrite A3 in R. cbn [bind] in R. rewrite ET in R. cbn [bind] in R.
      rewrite <- R. rewrite <- (synl_false L N J_min J spin lam mr psi phi HL (proj1 HN) Hlam HF).
      + destruct reality; [|reflexivity]. destruct (Hre eq_refl) as [-> Hr]. symmetry.
        apply Hr; try reflexivity. intros l m Hl' Hm. now apply synl_true_nonneg.
      + apply A4.
      + intros j Hj. rewrite Tnth_map by lia. apply (proj2 D j Hj).
  - destruct R as (_ & -> & p & q & Eq & Hp & R).
    replace (jax_synthesis P w sc L N J_min lam spin s nside reality (Some (psi, phi)) p)
      with (jax_synthesis P w sc L N J_min lam spin s nside reality (Some (psi, phi)) (Some q)) in R.
    2:{ destruct Hp as [->| ->]; [|reflexivity]. unfold jax_synthesis. rewrite Eq. reflexivity. }
    rewrite (gen_wigner_ok L N J_min lam s nside true reality J) in Eq by (auto; lra || lia). apply Ok_inj in Eq.
    assert (Hk : forall j, J_min <= j <= J -> lrd q (j - J_min) = Ok (rkf L N lam s nside true reality j)).
    { intros j Hj. rewrite <- Eq, lrd_map by lia. reflexivity. }
    rewrite (jax_synthesis_ok L N J_min J lam HL HN Hlam EJ0 ltac:(lia) P w sc spin s nside reality psi phi q) in R; auto; try lia.
    2:{ intros j fj pj T Hj Efj Epj. rewrite Hk in Epj by assumption. apply Ok_inj in Epj. subst pj. now apply HT. }
    change (j_fwd P sc (Ls_of L J_min lam true) spin nside s reality) with (b_fwd (lib_of Jax P) sc (Ls_of L J_min lam true) spin s nside reality) in R.
    rewrite A3 in R. cbn [bind] in R.
    rewrite (mapM_ext _ (fun j => fj <- lrd w (j - J_min) ;; b_wfwd (lib_of Jax P) fj (Lj_of L j lam true) (Nj_of L j N lam true) (L0_of j lam true) s reality nside)) in R.
    2:{ intros j Hj. apply In_zrange in Hj. rewrite Hk by lia. reflexivity. }
    rewrite ET in R. exact R.
  - destruct R as (_ & -> & Hsp & p & Eq & R). rewrite Hsp in *.
    rewrite (gen_full_ok L N J_min lam s nside true reality false J) in Eq by (auto; lra || lia).
    cbn [negb] in Eq. apply Ok_inj in Eq. subst p.
    rewrite (pre_synthesis_ok L N J_min J lam HL HN Hlam EJ0 ltac:(lia) P w sc 0 s nside reality psi phi) in R; auto; try lia.
    2:{ intros j fj pj T Hj Efj Epj. rewrite wk_nth in Epj by (auto; lia). apply Ok_inj in Epj. subst pj. now apply HT. }
    change (p_fwd P sc (SKern (Ls_of L J_min lam true) 0 reality s nside true) (Ls_of L J_min lam true) s reality 0 nside)
      with (b_fwd (lib_of Precompute P) sc (Ls_of L J_min lam true) 0 s nside reality) in R.
    rewrite A3 in R. cbn [bind] in R.
    rewrite (mapM_ext _ (fun j => fj <- lrd w (j - J_min) ;; b_wfwd (lib_of Precompute P) fj (Lj_of L j lam true) (Nj_of L j N lam true) (L0_of j lam true) s reality nside)) in R.
    2:{ intros j Hj. apply In_zrange in Hj. rewrite wk_nth by (auto; lia). reflexivity. }
    rewrite ET in R. exact R.
  - destruct R as (_ & -> & Hsp & p & Eq & R). rewrite Hsp in *.
    rewrite (gen_full_ok L N J_min lam s nside true reality false J) in Eq by (auto; lra || lia).
    cbn [negb] in Eq. apply Ok_inj in Eq. subst p.
    rewrite (torch_synthesis_ok L N J_min J lam HL HN Hlam EJ0 ltac:(lia) P w sc 0 s nside reality psi phi) in R; auto; try lia.
    2:{ intros j fj pj T Hj Efj Epj. rewrite wk_nth in Epj by (auto; lia). apply Ok_inj in Epj. subst pj. now apply HT. }
    change (t_fwd P sc (SKern (Ls_of L J_min lam true) 0 reality s nside true) (Ls_of L J_min lam true) s reality 0 nside)
      with (b_fwd (lib_of Torch P) sc (Ls_of L J_min lam true) 0 s nside reality) in R.
    rewrite A3 in R. cbn [bind] in R.
    rewrite (mapM_ext _ (fun j => fj <- lrd w (j - J_min) ;; b_wfwd (lib_of Torch P) fj (Lj_of L j lam true) (Nj_of L j N lam true) (L0_of j lam true) s reality nside)) in R.
    2:{ intros j Hj. apply In_zrange in Hj. rewrite wk_nth by (auto; lia). reflexivity. }
    rewrite ET in R. exact R.
  - destruct R as (_ & -> & Hns & Hre & R).
    assert (Ei : exists ix, ssht_sampling s = Ok ix /\ ix = match s with MW => 0 | MWSS => 1 | DH => 2 | _ => 3 end).
    { destruct s; try (eexists; split; reflexivity); cbn in R; discriminate. }
    destruct Ei as (ix & Ei & Eix).
    assert (Er : (if reality then nd_real sc else sc) = sc) by (destruct reality; auto).
    assert (Ef' : c_fwd P sc (Ls_of L J_min lam true) spin reality ix = Ok S) by (rewrite Eix; exact A3).
    rewrite (ssht_synthesis_ok L N J_min J lam HL HN Hlam EJ0 ltac:(lia) P w sc spin s reality psi phi ix) in R; auto; try lia.
    2:{ rewrite Er, Ef'. intros S' E. apply Ok_inj in E. subst. eapply harm_sh, A4. }
    rewrite Er, Ef' in R. cbn [bind] in R. 
    change (mapM (fun j => fj <- lrd w (j - J_min) ;; c_wfwd P fj (Lj_of L j lam true) (Nj_of L j N lam true) (L0_of j lam true) s reality) (zrange J_min (J + 1))
      = Ok (map W (zrange J_min (J + 1)))) in ET.
    rewrite ET in R. cbn [bind] in R. rewrite Eix in R. exact R.
Qed.
Lemma resyn_inv spin0 w sc W S g : measured O L N J_min J lam spin s nside reality mr w sc W S ->
  resynthesised b P w sc L N J_min lam spin spin0 s nside reality mr psi phi g ->
  b_inv O (sy W S) L spin s nside reality = Ok g.
Proof. apply resyn_inv0. apply known_lib. Qed.
Lemma resyn_coefs spin0 w sc W S g glm : measured O L N J_min J lam spin s nside reality mr w sc W S ->
  resynthesised b P w sc L N J_min lam spin spin0 s nside reality mr psi phi g ->
  b_fwd O g L spin s nside reality = Ok glm -> glm = sy W S /\ is_harmonic L spin reality glm.
Proof.
  intros M R E. pose proof (resyn_inv _ _ _ _ _ _ M R) as Ei.
  pose proof (sy_is reality W S (deco_of _ _ _ _ _ _ _ _ M)) as Hh.
  rewrite (fwd_of _ _ Hh Ei) in E. apply Ok_inj in E. subst. auto.
Qed.

(** every decomposition is that of some maps, and can be synthesised *)
Lemma deco_maps W S : deco reality W S ->
  exists w sc, measured O L N J_min J lam spin s nside reality mr w sc W S /\
    b_inv O S Ls spin s nside reality = Ok sc.
Proof.
  intros (D1 & D2). destruct HX as (X1 & X2). pose proof HJ. pose proof (Ls_range L J_min lam mr HL ltac:(lra)).
  destruct (X1 Ls ltac:(lia) _ D1) as (sc & E1 & E2 & E3).
  destruct (mapM_ex (fun j y => so3_f_shape (Lj j) (Nj j) s nside = Ok (nshape y) /\
     b_wfwd O y (Lj j) (Nj j) (L0 j) s reality nside = Ok (W j))
     (fun j => b_winv O (W j) (Lj j) (Nj j) (L0 j) s reality nside) J_min (J + 1) ltac:(lia)) as (w & _ & Hlen & Hw).
  { intros j Hj. destruct (wsz j ltac:(lia)) as (Z1 & Z2 & Z3 & Z4).
    apply (X2 (Lj j) (Nj j) (L0 j)); try lia. apply D2. lia. }
  exists w, sc. split; [|exact E1]. split; [lia|]. split.
  - exists Ls. rewrite scal_bandlimit_ok by lra. auto.
  - intros j Hj. destruct (Hw j ltac:(lia)) as (y & _ & (A1 & A2) & _ & A3).
    exists (Lj j), (Nj j), (L0 j), y. rewrite LN_j_ok by lra. auto 6.
Qed.
Lemma measured_syn0 w sc W S S' g : sampling_known s nside -> measured O L N J_min J lam spin s nside reality mr w sc W S ->
  usable b P spin s nside reality mr ->
  is_harmonic Ls spin reality S' -> b_inv O S' Ls spin s nside reality = Ok sc ->
  b_inv O (sy W S) L spin s nside reality = Ok g ->
  filters_directional_vectorised L N J_min lam spin 0 = Ok (psi, phi) ->
  resynthesised b P w sc L N J_min lam spin 0 s nside reality mr psi phi g.
Proof.
  clear HE. intros Hs M U HS' Esc Eg E. pose proof (measured_check0 _ _ _ _ Hs M) as Ck. pose proof (deco_of _ _ _ _ _ _ _ _ M) as D.
  destruct M as (M1 & (Ls' & A1 & A2 & A3 & A4) & A5). rewrite (Ls_eq L J_min lam mr Ls' ltac:(lra) A1) in *.
  filt_facts HF.
  assert (K : forall j, J_min <= j <= J -> exists y, lrd w (j - J_min) = Ok y /\
     b_wfwd O y (Lj j) (Nj j) (L0 j) s reality nside = Ok (W j)).
  { intros j Hj. destruct (A5 j Hj) as (x1 & x2 & x3 & y & E1 & E2 & _ & E3 & _).
    rewrite LN_j_ok in E1 by lra. apply Ok_inj in E1. injection E1 as <- <- <-. exists y. split; auto.
    apply lrd_nth; [lia|exact E2]. }
  assert (ET : mapM (fun j => fj <- lrd w (j - J_min) ;; b_wfwd O fj (Lj j) (Nj j) (L0 j) s reality nside)
     (zrange J_min (J + 1)) = Ok (map W (zrange J_min (J + 1)))).
  { apply mapM_ok. intros j Hj. apply In_zrange in Hj. destruct (K j ltac:(lia)) as (y & -> & E0). exact E0. }
  assert (HS : forall T, b_fwd O sc Ls spin s nside reality = Ok T -> flm_sh Ls T).
  { intros T E'. rewrite A3 in E'. apply Ok_inj in E'. subst T. eapply harm_sh, A4. }
  assert (HT : forall j fj T, J_min <= j <= J -> lrd w (j - J_min) = Ok fj ->
     b_wfwd O fj (Lj j) (Nj j) (L0 j) s reality nside = Ok T -> flmn_sh (Nj j) (Lj j) T).
  { intros j fj T Hj E1 E2. destruct (K j Hj) as (y & E3 & E4). assert (T = W j) as -> by congruence.
    eapply wig_sh. apply (proj2 D j Hj). }
  rewrite sy_syn in Eg. pose proof (or_intror (or_introl E) : is_filters L N J_min lam spin 0 psi phi) as HI.
  destruct b; cbn [usable] in U.
  - change (lib_of Base P) with P in *. left. split; [exact E|].
    rewrite (synthesis_ok L N J_min J lam mr HL HN Hlam EJ0 ltac:(lia) P w sc spin s nside reality psi phi); auto; try lia.
    rewrite Ck. cbn [bind]. rewrite A3. cbn [bind]. rewrite ET. exact Eg.
  - rewrite U in *. split; [exact HI|]. split; [reflexivity|].
    exists None, (map (rkf L N lam s nside true reality) (zrange J_min (J + 1))).
    pose proof (gen_wigner_ok L N J_min lam s nside true reality J ltac:(lra) EJ0 ltac:(lia)) as Eq.
    split; [exact Eq|]. split; [now left|].
    replace (jax_synthesis P w sc L N J_min lam spin s nside reality (Some (psi, phi)) None)
      with (jax_synthesis P w sc L N J_min lam spin s nside reality (Some (psi, phi))
        (Some (map (rkf L N lam s nside true reality) (zrange J_min (J + 1))))).
    2:{ unfold jax_synthesis. rewrite Eq. reflexivity. }
    rewrite (jax_synthesis_ok L N J_min J lam HL HN Hlam EJ0 ltac:(lia)); auto; try lia.
    2:{ intros j fj pj T Hj Efj Epj. rewrite lrd_map in Epj by lia. apply Ok_inj in Epj. subst pj. now apply HT. }
    change (j_fwd P sc (Ls_of L J_min lam true) spin nside s reality)
      with (b_fwd (lib_of Jax P) sc (Ls_of L J_min lam true) spin s nside reality).
    rewrite A3. cbn [bind].
    rewrite (mapM_ext _ (fun j => fj <- lrd w (j - J_min) ;; b_wfwd (lib_of Jax P) fj (Lj_of L j lam true)
      (Nj_of L j N lam true) (L0_of j lam true) s reality nside)).
    2:{ intros j Hj. apply In_zrange in Hj. rewrite lrd_map by lia. reflexivity. }
    rewrite ET. exact Eg.
  - destruct U as (U & Us). rewrite U, Us in *. split; [exact HI|]. split; [reflexivity|]. split; [reflexivity|].
    pose proof (gen_full_ok L N J_min lam s nside true reality false J ltac:(lra) EJ0 ltac:(lia)) as Eq.
    eexists. split; [exact Eq|]. cbn [negb].
    rewrite (pre_synthesis_ok L N J_min J lam HL HN Hlam EJ0 ltac:(lia)); auto; try lia.
    2:{ intros j fj pj T Hj Efj Epj. rewrite wk_nth in Epj by (auto; lia). apply Ok_inj in Epj. subst pj. now apply HT. }
    change (p_fwd P sc (SKern (Ls_of L J_min lam true) 0 reality s nside true) (Ls_of L J_min lam true) s reality 0 nside)
      with (b_fwd (lib_of Precompute P) sc (Ls_of L J_min lam true) 0 s nside reality).
    rewrite A3. cbn [bind].
    rewrite (mapM_ext _ (fun j => fj <- lrd w (j - J_min) ;; b_wfwd (lib_of Precompute P) fj (Lj_of L j lam true)
      (Nj_of L j N lam true) (L0_of j lam true) s reality nside)).
    2:{ intros j Hj. apply In_zrange in Hj. rewrite wk_nth by (auto; lia). reflexivity. }
    rewrite ET. exact Eg.
  - destruct U as (U & Us). rewrite U, Us in *. split; [exact HI|]. split; [reflexivity|]. split; [reflexivity|].
    pose proof (gen_full_ok L N J_min lam s nside true reality false J ltac:(lra) EJ0 ltac:(lia)) as Eq.
    eexists. split; [exact Eq|]. cbn [negb].
    rewrite (torch_synthesis_ok L N J_min J lam HL HN Hlam EJ0 ltac:(lia)); auto; try lia.
    2:{ intros j fj pj T Hj Efj Epj. rewrite wk_nth in Epj by (auto; lia). apply Ok_inj in Epj. subst pj. now apply HT. }
    change (t_fwd P sc (SKern (Ls_of L J_min lam true) 0 reality s nside true) (Ls_of L J_min lam true) s reality 0 nside)
      with (b_fwd (lib_of Torch P) sc (Ls_of L J_min lam true) 0 s nside reality).
    rewrite A3. cbn [bind].
    rewrite (mapM_ext _ (fun j => fj <- lrd w (j - J_min) ;; b_wfwd (lib_of Torch P) fj (Lj_of L j lam true)
      (Nj_of L j N lam true) (L0_of j lam true) s reality nside)).
    2:{ intros j Hj. apply In_zrange in Hj. rewrite wk_nth by (auto; lia). reflexivity. }
    rewrite ET. exact Eg.
  - destruct U as (U & Us & Ur). rewrite U, Us in *. split; [exact HI|]. split; [reflexivity|]. split; [reflexivity|].
    assert (Hre : reality = true -> nd_real sc = sc).
    { intros Hr. rewrite Hr in *. eapply Ur; [reflexivity|exact HS'|exact Esc]. }
    split; [exact Hre|].
    assert (Ei : exists ix, ssht_sampling s = Ok ix /\ ix = match s with MW => 0 | MWSS => 1 | DH => 2 | _ => 3 end).
    { destruct s; try (eexists; split; reflexivity); cbn in Hs; (contradiction || (exfalso; now apply Hs)). }
    destruct Ei as (ix & Ei & Eix).
    assert (Er : (if reality then nd_real sc else sc) = sc) by (destruct reality; auto).
    assert (Ef' : c_fwd P sc (Ls_of L J_min lam true) spin reality ix = Ok S) by (rewrite Eix; exact A3).
    rewrite (ssht_synthesis_ok L N J_min J lam HL HN Hlam EJ0 ltac:(lia) P w sc spin s reality psi phi ix); auto; try lia.
    2:{ rewrite Er, Ef'. intros T E'. apply Ok_inj in E'. subst T. eapply harm_sh, A4. }
    rewrite Er, Ef'. cbn [bind].
    change (mapM (fun j => fj <- lrd w (j - J_min) ;; c_wfwd P fj (Lj_of L j lam true) (Nj_of L j N lam true)
      (L0_of j lam true) s reality) (zrange J_min (J + 1)) = Ok (map W (zrange J_min (J + 1)))) in ET.
    rewrite ET. cbn [bind]. rewrite Eix. exact Eg.
Qed.

Lemma measured_syn w sc W S : measured O L N J_min J lam spin s nside reality mr w sc W S ->
  usable b P spin s nside reality mr ->
  b_inv O S Ls spin s nside reality = Ok sc ->
  filters_directional_vectorised L N J_min lam spin 0 = Ok (psi, phi) ->
  exists g, resynthesised b P w sc L N J_min lam spin 0 s nside reality mr psi phi g.
Proof.
  intros M U Esc E. pose proof (deco_of _ _ _ _ _ _ _ _ M) as D. pose proof (sy_is reality W S D) as Hh.
  destruct (proj1 HX L HL _ Hh) as (g & Eg & _). exists g. eapply measured_syn0; eauto; [apply known_lib|apply D].
Qed.
Lemma base_syn0 w sc W S : sampling_known s nside -> measured O L N J_min J lam spin s nside reality mr w sc W S ->
  filters_directional_vectorised L N J_min lam spin 0 = Ok (psi, phi) ->
  synthesis O w sc L N J_min lam spin 0 s nside reality mr = b_inv O (sy W S) L spin s nside reality.
Proof.
  clear HE. intros Hs M E. pose proof (measured_check0 _ _ _ _ Hs M) as Ck. pose proof (deco_of _ _ _ _ _ _ _ _ M) as D.
  destruct M as (M1 & (Ls' & A1 & A2 & A3 & A4) & A5). rewrite (Ls_eq L J_min lam mr Ls' ltac:(lra) A1) in *.
  filt_facts HF.
  assert (K : forall j, J_min <= j <= J -> exists y, lrd w (j - J_min) = Ok y /\
     b_wfwd O y (Lj j) (Nj j) (L0 j) s reality nside = Ok (W j)).
  { intros j Hj. destruct (A5 j Hj) as (x1 & x2 & x3 & y & E1 & E2 & _ & E3 & _).
    rewrite LN_j_ok in E1 by lra. apply Ok_inj in E1. injection E1 as <- <- <-. exists y. split; auto.
    apply lrd_nth; [lia|exact E2]. }
  assert (ET : mapM (fun j => fj <- lrd w (j - J_min) ;; b_wfwd O fj (Lj j) (Nj j) (L0 j) s reality nside)
     (zrange J_min (J + 1)) = Ok (map W (zrange J_min (J + 1)))).
  { apply mapM_ok. intros j Hj. apply In_zrange in Hj. destruct (K j ltac:(lia)) as (y & -> & E0). exact E0. }
  rewrite (synthesis_ok L N J_min J lam mr HL HN Hlam EJ0 ltac:(lia) O w sc spin s nside reality psi phi); auto; try lia.
  - rewrite Ck. cbn [bind]. rewrite A3. cbn [bind]. rewrite ET. cbn [bind]. now rewrite <- sy_syn.
  - intros S' E'. rewrite A3 in E'. apply Ok_inj in E'. subst. eapply harm_sh, A4.
  - intros j fj T Hj E1 E2. destruct (K j Hj) as (y & E3 & E4). assert (T = W j) as -> by congruence.
    eapply wig_sh. apply (proj2 D j Hj).
Qed.

(** every band-limited field can be analysed *)
Lemma base_syn w sc W S : measured O L N J_min J lam spin s nside reality mr w sc W S ->
  filters_directional_vectorised L N J_min lam spin 0 = Ok (psi, phi) ->
  synthesis O w sc L N J_min lam spin 0 s nside reality mr = b_inv O (sy W S) L spin s nside reality.
Proof. apply base_syn0. apply known_lib. Qed.
Lemma field_an0 f flm w sc : sampling_known s nside -> is_harmonic L spin reality flm -> b_fwd O f L spin s nside reality = Ok flm ->
  b_inv O (scf flm) Ls spin s nside reality = Ok sc ->
  mapM (fun j => b_winv O (wcf flm j) (Lj j) (Nj j) (L0 j) s reality nside) (zrange J_min (J + 1)) = Ok w ->
  (b <> Base -> scal_bandlimit L J_min lam true = Ok 1 -> forall a, is_harmonic 1 spin reality a ->
     b_inv O a 1 spin s nside reality = Ok (constant_field a)) ->
  usable b P spin s nside reality mr ->
  filters_directional_vectorised L N J_min lam spin 0 = Ok (psi, phi) ->
  analysed b P f L N J_min lam spin 0 s nside reality mr psi phi w sc.
Proof.
  clear HE. intros Hs Hh Eb Es Ew H1 U E. filt_facts HF.
  assert (Hsh : forall flm', b_fwd O f L spin s nside reality = Ok flm' -> flm_sh L flm').
  { intros flm' E'. rewrite Eb in E'. apply Ok_inj in E'. subst. eapply harm_sh, Hh. }
  destruct (deco_an reality flm Hh) as (D1 & D2). pose proof (Ls_range L J_min lam mr HL ltac:(lra)).
  pose proof (or_intror (or_introl E) : is_filters L N J_min lam spin 0 psi phi) as HI.
  assert (Hone : b <> Base -> mr = true -> forall inv : res nd, inv = b_inv O (scf flm) Ls spin s nside reality ->
    (if Ls_of L J_min lam true =? 1 then Ok (one_pixel (scf flm)) else inv) = b_inv O (scf flm) Ls spin s nside reality).
  { intros Hb Hm inv ->. subst mr. destruct (Z.eqb_spec (Ls_of L J_min lam true) 1) as [E1|_]; [|reflexivity].
    specialize (H1 Hb). rewrite scal_bandlimit_ok in H1 by lra. rewrite E1 in *. specialize (H1 eq_refl _ D1).
    rewrite H1. f_equal. eapply harmonic_1, D1. }
  destruct b; cbn [usable] in U.
  - change (lib_of Base P) with P in *. left. split; [exact E|].
    rewrite (analysis_ok L N J_min J lam mr HL HN Hlam EJ0 ltac:(lia) P f spin s nside reality false psi phi); auto; try lia.
    2:{ eapply known_some; eauto. }
    rewrite Eb. cbn [bind]. rewrite Ew. cbn [bind]. rewrite Es. reflexivity.
  - rewrite U in *. split; [exact HI|]. split; [reflexivity|].
    exists None, (map (rkf L N lam s nside false reality) (zrange J_min (J + 1))).
    pose proof (gen_wigner_ok L N J_min lam s nside false reality J ltac:(lra) EJ0 ltac:(lia)) as Eq.
    split; [exact Eq|]. split; [now left|].
    replace (jax_analysis P f L N J_min lam spin s nside reality (Some (psi, phi)) None)
      with (jax_analysis P f L N J_min lam spin s nside reality (Some (psi, phi))
        (Some (map (rkf L N lam s nside false reality) (zrange J_min (J + 1))))).
    2:{ unfold jax_analysis. rewrite Eq. reflexivity. }
    rewrite (jax_analysis_ok L N J_min J lam HL HN Hlam EJ0 ltac:(lia)); auto; try lia.
    change (j_fwd P f L spin nside s reality) with (b_fwd (lib_of Jax P) f L spin s nside reality).
    rewrite Eb. cbn [bind].
    rewrite (mapM_ext _ (fun j => b_winv (lib_of Jax P) (wc L N lam true psi flm j) (Lj_of L j lam true)
      (Nj_of L j N lam true) (L0_of j lam true) s reality nside)).
    2:{ intros j Hj. apply In_zrange in Hj. rewrite lrd_map by lia. reflexivity. }
    rewrite Ew. cbn [bind]. rewrite Hone by (discriminate || reflexivity). rewrite Es. reflexivity.
  - destruct U as (U & Us). rewrite U, Us in *. split; [exact HI|]. split; [reflexivity|]. split; [reflexivity|].
    pose proof (gen_full_ok L N J_min lam s nside false reality false J ltac:(lra) EJ0 ltac:(lia)) as Eq.
    eexists. split; [exact Eq|]. cbn [negb].
    rewrite (pre_analysis_ok L N J_min J lam HL HN Hlam EJ0 ltac:(lia)); auto; try lia.
    change (p_fwd P f (SKern L 0 reality s nside true) L s reality 0 nside)
      with (b_fwd (lib_of Precompute P) f L 0 s nside reality).
    rewrite Eb. cbn [bind].
    rewrite (mapM_ext _ (fun j => b_winv (lib_of Precompute P) (wc L N lam true psi flm j) (Lj_of L j lam true)
      (Nj_of L j N lam true) (L0_of j lam true) s reality nside)).
    2:{ intros j Hj. apply In_zrange in Hj. rewrite wk_nth by (auto; lia). reflexivity. }
    rewrite Ew. cbn [bind need]. rewrite Hone by (discriminate || reflexivity). rewrite Es. reflexivity.
  - destruct U as (U & Us). rewrite U, Us in *. split; [exact HI|]. split; [reflexivity|]. split; [reflexivity|].
    pose proof (gen_full_ok L N J_min lam s nside false reality false J ltac:(lra) EJ0 ltac:(lia)) as Eq.
    eexists. split; [exact Eq|]. cbn [negb].
    rewrite (torch_analysis_ok L N J_min J lam HL HN Hlam EJ0 ltac:(lia)); auto; try lia.
    change (t_fwd P f (SKern L 0 reality s nside true) L s reality 0 nside)
      with (b_fwd (lib_of Torch P) f L 0 s nside reality).
    rewrite Eb. cbn [bind].
    rewrite (mapM_ext _ (fun j => b_winv (lib_of Torch P) (wc L N lam true psi flm j) (Lj_of L j lam true)
      (Nj_of L j N lam true) (L0_of j lam true) s reality nside)).
    2:{ intros j Hj. apply In_zrange in Hj. rewrite wk_nth by (auto; lia). reflexivity. }
    rewrite Ew. cbn [bind need]. rewrite Hone by (discriminate || reflexivity). rewrite Es. reflexivity.
  - destruct U as (U & Us & Ur). rewrite U, Us in *. split; [exact HI|]. split; [reflexivity|]. split; [reflexivity|].
    assert (Ei : exists ix, ssht_sampling s = Ok ix /\ ix = match s with MW => 0 | MWSS => 1 | DH => 2 | _ => 3 end).
    { destruct s; try (eexists; split; reflexivity); cbn in Hs; (contradiction || (exfalso; now apply Hs)). }
    destruct Ei as (ix & Ei & Eix).
    assert (Ef' : c_fwd P f L spin reality ix = Ok flm) by (rewrite Eix; exact Eb).
    rewrite (ssht_analysis_ok L N J_min J lam HL HN Hlam EJ0 ltac:(lia) P f spin s reality psi phi ix); auto; try lia.
    2:{ intros flm' E'. rewrite Ef' in E'. apply Ok_inj in E'. subst. eapply harm_sh, Hh. }
    rewrite Ef'. cbn [bind]. rewrite Hone by (discriminate || reflexivity || (rewrite Eix; reflexivity)).
    change (mapM (fun j => c_winv P (wc L N lam true psi flm j) (Lj_of L j lam true) (Nj_of L j N lam true)
      (L0_of j lam true) s reality) (zrange J_min (J + 1)) = Ok w) in Ew.
    rewrite Ew. cbn [bind]. rewrite Es. reflexivity.
Qed.
Lemma field_an f flm : is_harmonic L spin reality flm -> b_inv O flm L spin s nside reality = Ok f ->
  usable b P spin s nside reality mr ->
  filters_directional_vectorised L N J_min lam spin 0 = Ok (psi, phi) ->
  exists w sc, analysed b P f L N J_min lam spin 0 s nside reality mr psi phi w sc.
Proof.
  intros Hh Ef U E. pose proof (fwd_of flm f Hh Ef) as Eb. filt_facts HF.
  destruct (deco_an reality flm Hh) as (D1 & D2). pose proof (Ls_range L J_min lam mr HL ltac:(lra)).
  destruct (proj1 HX Ls ltac:(lia) _ D1) as (sc & Es & _).
  destruct (mapM_ex (fun _ _ => True)
     (fun j => b_winv O (wcf flm j) (Lj j) (Nj j) (L0 j) s reality nside) J_min (J + 1) ltac:(lia)) as (w & Ew & _).
  { intros j Hj. destruct (wsz j ltac:(lia)) as (Z1 & Z2 & Z3 & Z4).
    destruct (proj2 HX (Lj j) (Nj j) (L0 j) ltac:(lia) ltac:(lia) ltac:(lia) _ (D2 j ltac:(lia))) as (y & Ey & _).
    exists y. auto. }
  exists w, sc. apply (field_an0 f flm w sc); auto; [apply known_lib|]. intros Hb. apply (proj2 HE Hb).
Qed.
End Maps.

(** ** Adjointness *)

Section Adj.
Variables (flm : arr2 C) (W : Z -> arr3 C) (S : arr2 C).
Hypothesis HH : harmonic L spin flm.
Hypothesis HW : forall j, J_min <= j <= J -> wigner (Lj j) (Nj j) (L0 j) (W j).
Hypothesis HS : harmonic Ls spin S.

Lemma adj_scale j : J_min <= j <= J ->
  inner3 (wcf flm j) (W j) = csumZ 0 L (fun l => csumZ 0 (2 * L - 1) (fun q =>
    Cmult (Cconj (get2 flm l q)) (wavelet_part L psi j (Lj j) (Nj j) (L0 j) (W j) l (q - (L - 1))))).
Proof.
  intros Hj. pose proof HJ. destruct (wsz j ltac:(lia)) as (Z1 & Z2 & Z3 & Z4).
  rewrite (csumZ_widen 0 0 (Lj j) L); try lia.
  2:{ intros l Hl Ho. apply csumZ_zero. intros q Hq. unfold wavelet_part.
      replace (l <? Lj j) with false by zb. rewrite andb_false_r. cbn [andb]. ring. }
  unfold inner3. cbn [wc wavelet_coefs mk3 dim0 dim1 dim2]. apply csumZ_ext. intros l Hl.
  destruct (two_l1 l ltac:(lia)) as [_ Hp]. pose proof PI_RGT_0 as Hpi.
  set (w := (8 * PI ^ 2 / (2 * IZR l + 1))%R).
  assert (Hw : ((2 * IZR l + 1) / (8 * PI ^ 2) = / w)%R) by (unfold w; field; split; nra).
  assert (Hw0 : (w <> 0)%R) by (unfold w; apply Rgt_not_eq, Rdiv_lt_0_compat; nra).
  rewrite Hw.
  rewrite (csumZ_widen 0 (0 + (L - Lj j)) (2 * Lj j - 1 + (L - Lj j)) (2 * L - 1)); try lia.
  2:{ intros q Hq Ho. unfold wavelet_part. replace (Z.abs (q - (L - 1)) <? Lj j) with false by zb.
      rewrite andb_false_r. ring. }
  rewrite csumZ_shift, csumZ_swap, <- csumZ_mul. apply csumZ_ext. intros b Hb.
  replace (b + (L - Lj j) - (L - 1)) with (b - (Lj j - 1)) by lia. unfold wavelet_part.
  replace (l <? Lj j) with true by zb. replace (Z.abs (b - (Lj j - 1)) <? Lj j) with true by zb. rewrite !andb_true_r.
  replace (csumZ 0 (2 * Nj j - 1) (fun i => Cmult (Cconj (get3 (wcf flm j) i l b)) (get3 (W j) i l b)))
    with (csumZ 0 (2 * Nj j - 1) (fun i => Cmult (Cmult (RtoC w) (Cconj (get2 flm l (b + (L - Lj j)))))
       (if Z.even (i + - (Nj j - 1) - (Nj j - 1)) && (L0 j <=? l)
        then Cmult (get3 (W j) i l b) (get3 psi j l (L - 1 + (i + - (Nj j - 1)))) else RtoC 0))).
  2:{ apply csumZ_ext. intros a Ha. rewrite (wc_get L N lam mr psi flm j a l b) by lia. fold w.
      replace (a + - (Nj j - 1)) with (a - (Nj j - 1)) by lia.
      replace (L - 1 + (b - (Lj j - 1))) with (b + (L - Lj j)) by lia.
      destruct (_ && _); [|rewrite Cconj_0; ring]. rewrite !Cmult_conj, Cconj_RtoC, Cconj_conj. ring. }
  rewrite csumZ_mul.
  transitivity (Cmult (RtoC (/ w * w)) (Cmult (Cconj (get2 flm l (b + (L - Lj j))))
    (csumZ 0 (2 * Nj j - 1) (fun i => if Z.even (i + - (Nj j - 1) - (Nj j - 1)) && (L0 j <=? l)
        then Cmult (get3 (W j) i l b) (get3 psi j l (L - 1 + (i + - (Nj j - 1)))) else RtoC 0)))).
  { rewrite RtoC_mult. ring. }
  rewrite Rinv_l by exact Hw0. rewrite Cmult_1_l. f_equal.
  destruct (L0 j <=? l).
  - match goal with |- _ = csumZ _ _ ?G =>
      transitivity (csumZ (0 + - (Nj j - 1)) (2 * Nj j - 1 + - (Nj j - 1)) G); [|f_equal; lia] end.
    rewrite csumZ_shift.
    apply csumZ_ext. intros a Ha. rewrite andb_true_r.
    replace (Nj j - 1 + (a + - (Nj j - 1))) with a by lia. now replace (Lj j - 1 + (b - (Lj j - 1))) with b by lia.
  - apply csumZ_zero. intros. now rewrite andb_false_r.
Qed.
Lemma adj_scal :
  inner2 (scf flm) S = csumZ 0 L (fun l => csumZ 0 (2 * L - 1) (fun q =>
    Cmult (Cconj (get2 flm l q)) (scaling_part phi Ls S l (q - (L - 1))))).
Proof.
  pose proof (Ls_range L J_min lam mr HL ltac:(lra)).
  rewrite (csumZ_widen 0 0 Ls L); try lia.
  2:{ intros l Hl Ho. apply csumZ_zero. intros q Hq. unfold scaling_part.
      replace (l <? Ls) with false by zb. cbn [andb]. ring. }
  unfold inner2. cbn [scaling_coefs mk2 rows cols]. apply csumZ_ext. intros l Hl.
  rewrite (csumZ_widen 0 (0 + (L - Ls)) (2 * Ls - 1 + (L - Ls)) (2 * L - 1)); try lia.
  2:{ intros q Hq Ho. unfold scaling_part. replace (Z.abs (q - (L - 1)) <? Ls) with false by zb.
      rewrite andb_false_r. ring. }
  rewrite csumZ_shift. apply csumZ_ext. intros b Hb.
  replace (b + (L - Ls) - (L - 1)) with (b - (Ls - 1)) by lia. unfold scaling_part.
  replace (l <? Ls) with true by zb. replace (Z.abs (b - (Ls - 1)) <? Ls) with true by zb. cbn [andb].
  fold (scf flm). unfold scaling_coefs. rewrite get2_mk by lia.
  replace (L - 1 + (b - (Ls - 1))) with (b + (L - Ls)) by lia.
  replace (Ls - 1 + (b - (Ls - 1))) with b by lia. rewrite Cmult_conj, Cconj_RtoC. ring.
Qed.
Lemma adjoint_sy : inner J_min J (wcf flm) (scf flm) W S = inner2 flm (sy W S).
Proof.
  destruct HH as (F1 & F2 & _). unfold inner. rewrite adj_scal.
  rewrite (csumZ_ext _ _ _ (fun j => csumZ 0 L (fun l => csumZ 0 (2 * L - 1) (fun q =>
    Cmult (Cconj (get2 flm l q)) (wavelet_part L psi j (Lj j) (Nj j) (L0 j) (W j) l (q - (L - 1)))))))
    by (intros; apply adj_scale; lia).
  rewrite csumZ_swap, <- csumZ_plus. unfold inner2. rewrite F1, F2. apply csumZ_ext. intros l Hl.
  rewrite csumZ_swap, <- csumZ_plus. apply csumZ_ext. intros q Hq.
  rewrite csumZ_mul, <- Cmult_plus_distr_l. f_equal. unfold synthesised. now rewrite get2_mk by lia.
Qed.
End Adj.
End Sig.
