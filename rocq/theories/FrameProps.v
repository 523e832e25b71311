(** Statements and proofs for PropertiesFrame.v *)

From Coq Require Import ZArith Reals List Bool Lia Lra FunctionalExtensionality.
From Coquelicot Require Import Rcomplements Complex.
From Verif Require Import Py PyFacts ModelSamples SamplesFacts ModelFilters ModelTransforms Spec SpecTransforms
  FiltersFacts AxisymFacts DirectionFacts DirFilterFacts FiltersProps TransformsFacts BackendFacts LoopFacts
  ReconFacts RoundFacts Demo TransformsProps.
Import ListNotations.
Open Scope Z_scope.

(*T The tight frame, and further properties of the base transforms *)
(*! From Coq Require Import ZArith Reals List Bool. *)
(*! From Coquelicot Require Import Complex. *)
(*! From Verif Require Import Py ModelSamples ModelFilters ModelTransforms Spec SpecTransforms Demo. *)

(*% ** C31: energy *)

Lemma sumZ_plus lo hi f g : sumZ lo hi (fun i => f i + g i)%R = (sumZ lo hi f + sumZ lo hi g)%R.
Proof. rewrite !sumZ_zrsum. symmetry. apply zrsum_add. Qed.
Lemma sumZ_mulr lo hi f c : sumZ lo hi (fun i => f i * c)%R = (sumZ lo hi f * c)%R.
Proof. rewrite (sumZ_ext _ _ _ (fun i => c * f i)%R) by (intros; ring). rewrite sumZ_mul. ring. Qed.
Lemma sumZ_shift lo hi d f : sumZ (lo + d) (hi + d) f = sumZ lo hi (fun i => f (i + d)).
Proof.
  rewrite !sumZ_zrsum. replace (hi + d - (lo + d)) with (hi - lo) by lia. apply zrsum_ext. intros. f_equal. lia.
Qed.
Lemma sumZ_nil lo hi f : hi <= lo -> sumZ lo hi f = 0%R.
Proof. intros. apply sumZ_zero. intros. lia. Qed.
Lemma sumZ_S lo hi f : lo <= hi -> sumZ lo (hi + 1) f = (sumZ lo hi f + f hi)%R.
Proof.
  intros. rewrite !sumZ_zrsum. replace (hi + 1 - lo) with (hi - lo + 1) by lia. rewrite zrsum_S by lia.
  do 2 f_equal. lia.
Qed.
Lemma sumZ_swap lo hi lo' hi' f :
  sumZ lo hi (fun i => sumZ lo' hi' (fun j => f i j)) = sumZ lo' hi' (fun j => sumZ lo hi (fun i => f i j)).
Proof.
  destruct (Z_le_dec lo hi) as [H|H].
  2:{ rewrite sumZ_nil by lia. symmetry. apply sumZ_zero. intros. apply sumZ_nil. lia. }
  replace hi with (lo + (hi - lo)) by lia. assert (Hk : 0 <= hi - lo) by lia. revert Hk. generalize (hi - lo). clear H hi.
  apply (natlike_ind (fun k => sumZ lo (lo + k) (fun i => sumZ lo' hi' (fun j => f i j))
     = sumZ lo' hi' (fun j => sumZ lo (lo + k) (fun i => f i j)))).
  - rewrite Z.add_0_r, sumZ_nil by lia. symmetry. apply sumZ_zero. intros. apply sumZ_nil. lia.
  - intros k Hk IH. replace (lo + Z.succ k) with (lo + k + 1) by lia. rewrite sumZ_S by lia. rewrite IH, <- sumZ_plus.
    apply sumZ_ext. intros. now rewrite sumZ_S by lia.
Qed.

Lemma Cmod2_mult x y : (Cmod (Cmult x y) ^ 2 = Cmod x ^ 2 * Cmod y ^ 2)%R.
Proof. rewrite Cmod_mult. ring. Qed.
Lemma Cmod2_R r : (Cmod (RtoC r) ^ 2 = r ^ 2)%R.
Proof. rewrite Cmod_R. symmetry. rewrite <- Rsqr_pow2, Rsqr_abs. now rewrite Rsqr_pow2. Qed.
Lemma Cmod2_c x : (Cmod (Cconj x) ^ 2 = Cmod x ^ 2)%R.
Proof.
  assert (H : RtoC (Cmod (Cconj x) ^ 2) = RtoC (Cmod x ^ 2)).
  { rewrite <- !Cmod2_conj, Cconj_conj. ring. }
  now apply RtoC_inj in H.
Qed.
Lemma Cmod2_0 : (Cmod (RtoC 0) ^ 2 = 0)%R. Proof. rewrite Cmod_0. ring. Qed.

Section Energy.
Variables (L N J_min J spin : Z) (lam : R) (mr : bool).
Hypothesis HL : 1 <= L.
Hypothesis HN : 1 <= N <= L.
Hypothesis Hlam : (1 < lam)%R.
Variables (psi : arr3 C) (phi : arr1 R) (flm : arr2 C).
Hypothesis HF : filt L N J_min J spin lam psi phi.
Hypothesis HH : harmonic L spin flm.
Notation Lj j := (Lj_of L j lam mr).
Notation Nj j := (Nj_of L j N lam mr).
Notation L0 j := (L0_of j lam mr).
Notation Ls := (Ls_of L J_min lam mr).
Notation EJ := (f_J _ _ _ _ _ _ _ _ HF).
Notation P l := (sumZ 0 (2 * L - 1) (fun k => (Cmod (get2 flm l k) ^ 2)%R)).
Notation E j l := (sumZ (- l)%Z (l + 1)%Z (fun n => (Cmod (get3 psi j l (L - 1 + n)%Z) ^ 2)%R)).

Lemma row_power B l : 0 <= l < B -> B <= L ->
  sumZ 0 (2 * B - 1) (fun k => (Cmod (get2 flm l (L - 1 + (k - (B - 1)))) ^ 2)%R) = P l.
Proof.
  intros Hl HB. destruct HH as (_ & _ & F).
  rewrite (sumZ_ext _ _ _ (fun k => (Cmod (get2 flm l (k + (L - B))%Z) ^ 2)%R)) by (intros; do 3 f_equal; lia).
  rewrite <- (sumZ_shift 0 (2 * B - 1) (L - B) (fun k => (Cmod (get2 flm l k) ^ 2)%R)).
  symmetry. apply sumZ_widen; try lia. intros k Hk Ho.
  destruct (Ceq0_dec (get2 flm l k)) as [->|Hne]; [apply Cmod2_0|].
  replace k with (L - 1 + (k - (L - 1))) in Hne by lia. apply F in Hne. lia.
Qed.

Lemma psi_row j l : 0 <= j <= J -> 0 <= l < L ->
  sumZ 0 (2 * Nj j - 1) (fun a => if Z.even (a - (Nj j - 1) - (Nj j - 1)) && (L0 j <=? l)
     then (Cmod (get3 psi j l (L - 1 + (a - (Nj j - 1)))) ^ 2)%R else 0%R) = E j l.
Proof.
  intros Hj Hl. pose proof (sz_facts L N J lam mr HL HN Hlam EJ j Hj) as (Z1 & Z2 & Z3 & Z4).
  pose proof (f_psi_supp _ _ _ _ _ _ _ _ HF mr) as Sp.
  rewrite (sumZ_ext _ _ _ (fun a => (Cmod (get3 psi j l (L - 1 + (a + (1 - Nj j)))%Z) ^ 2)%R)).
  2:{ intros a Ha. replace (a - (Nj j - 1)) with (a + (1 - Nj j)) by lia.
      destruct (Ceq0_dec (get3 psi j l (L - 1 + (a + (1 - Nj j))))) as [->|Hne].
      - rewrite Cmod2_0. now destruct (_ && _).
      - apply Sp in Hne; [|lia..]. destruct Hne as (_ & Q1 & _ & Q2 & _). rewrite Q2.
        replace (L0 j <=? l) with true by (symmetry; apply Z.leb_le; lia). reflexivity. }
  rewrite <- (sumZ_shift 0 (2 * Nj j - 1) (1 - Nj j) (fun a => (Cmod (get3 psi j l (L - 1 + a)%Z) ^ 2)%R)).
  assert (Z0 : forall n, Z.abs n < L -> ~ (Z.abs n <= l /\ Z.abs n < Nj j) ->
              (Cmod (get3 psi j l (L - 1 + n)%Z) ^ 2 = 0)%R).
  { intros n Hn Ho. destruct (Ceq0_dec (get3 psi j l (L - 1 + n))) as [->|Hne]; [apply Cmod2_0|].
    apply Sp in Hne; lia. }
  rewrite <- (sumZ_widen (- L + 1) (0 + (1 - Nj j)) (2 * Nj j - 1 + (1 - Nj j)) L) by (lia || (intros; apply Z0; lia)).
  rewrite <- (sumZ_widen (- L + 1) (- l) (l + 1) L) by (lia || (intros; apply Z0; lia)).
  reflexivity.
Qed.
Lemma E_out j l : 0 <= j <= J -> 0 <= l < L -> ~ (l < Lj j) -> E j l = 0%R.
Proof.
  intros Hj Hl Ho. apply sumZ_zero. intros n Hn.
  destruct (Ceq0_dec (get3 psi j l (L - 1 + n))) as [->|Hne]; [apply Cmod2_0|].
  apply (f_psi_supp _ _ _ _ _ _ _ _ HF mr) in Hne; lia.
Qed.

Lemma energy_scale j : 0 <= j <= J ->
  energy3 (wc L N lam mr psi flm j)
  = sumZ 0 L (fun l => (8 * PI ^ 2 / (2 * IZR l + 1) * E j l * P l)%R).
Proof.
  intros Hj. pose proof (sz_facts L N J lam mr HL HN Hlam EJ j Hj) as (Z1 & Z2 & Z3 & Z4).
  rewrite (sumZ_widen 0 0 (Lj j) L).
  3:lia. 2:lia. 2:{ intros l Hl Ho. rewrite E_out by lia. ring. }
  unfold energy3. cbn [wc wavelet_coefs mk3 dim0 dim1 dim2]. apply sumZ_ext. intros l Hl.
  destruct (two_l1 l ltac:(lia)) as [_ Hp]. pose proof PI_RGT_0 as Hpi.
  set (w := (8 * PI ^ 2 / (2 * IZR l + 1))%R).
  assert (Hw : ((2 * IZR l + 1) / (8 * PI ^ 2) = / w)%R) by (unfold w; field; split; nra).
  assert (Hw0 : (w <> 0)%R) by (unfold w; apply Rgt_not_eq, Rdiv_lt_0_compat; nra).
  rewrite Hw, <- (psi_row j l), <- (row_power (Lj j) l) by lia.
  rewrite (sumZ_ext _ _ _ (fun a => (w ^ 2 * (sumZ 0 (2 * Lj j - 1) (fun k => (Cmod (get2 flm l (L - 1 + (k - (Lj j - 1)))%Z) ^ 2)%R)))
     * (if Z.even (a - (Nj j - 1) - (Nj j - 1)) && (L0 j <=? l)
     then (Cmod (get3 psi j l (L - 1 + (a - (Nj j - 1)))) ^ 2)%R else 0))%R).
  - rewrite sumZ_mul. field. exact Hw0.
  - intros a Ha. rewrite (sumZ_ext _ _ _ (fun k => ((Cmod (get2 flm l (L - 1 + (k - (Lj j - 1)))%Z) ^ 2)
      * (w ^ 2 * (if Z.even (a - (Nj j - 1) - (Nj j - 1)) && (L0 j <=? l)
     then (Cmod (get3 psi j l (L - 1 + (a - (Nj j - 1)))%Z) ^ 2)%R else 0))))%R).
    + rewrite sumZ_mulr. ring.
    + intros k Hk. rewrite (wc_get L N lam mr psi flm j a l k) by lia.
      destruct (_ && _); [|rewrite Cmod2_0; ring]. fold w. rewrite !Cmod2_mult, Cmod2_R, Cmod2_c. ring.
Qed.
Lemma energy_scal :
  energy2 (scaling_coefs L phi flm Ls)
  = sumZ 0 L (fun l => (4 * PI / (2 * IZR l + 1) * get1 phi l ^ 2 * P l)%R).
Proof.
  pose proof (Ls_range L J_min lam mr HL ltac:(lra)) as HLs.
  rewrite (sumZ_widen 0 0 Ls L).
  3:lia. 2:lia.
  2:{ intros l Hl Ho. destruct (Req_dec (get1 phi l) 0) as [->|Hne]; [ring|].
      apply (f_phi_supp _ _ _ _ _ _ _ _ HF mr) in Hne; lia. }
  unfold energy2. change (rows (scaling_coefs L phi flm Ls)) with Ls; change (cols (scaling_coefs L phi flm Ls)) with (2 * Ls - 1). apply sumZ_ext. intros l Hl.
  destruct (two_l1 l ltac:(lia)) as [_ Hp]. pose proof PI_RGT_0 as Hpi.
  rewrite <- (row_power Ls l), <- sumZ_mul by lia. apply sumZ_ext. intros k Hk.
  unfold scaling_coefs. rewrite get2_mk by lia. cbv zeta. rewrite Cmod2_mult, Cmod2_R, Rpow_mult_distr, pow2_sqrt by (apply Rdiv_le_0_compat; lra).
  ring.
Qed.
Lemma energy_total :
  (sumZ J_min (J + 1) (fun j => energy3 (wc L N lam mr psi flm j)) + energy2 (scaling_coefs L phi flm Ls)
  = sumZ 0 L (fun l => dir_total L psi phi J_min J l * P l))%R.
Proof.
  pose proof (f_range _ _ _ _ _ _ _ _ HF) as HJ.
  rewrite (sumZ_ext _ _ _ (fun j => sumZ 0 L (fun l => (8 * PI ^ 2 / (2 * IZR l + 1) * E j l * P l)%R)))
    by (intros; apply energy_scale; lia).
  rewrite energy_scal, sumZ_swap, <- sumZ_plus. apply sumZ_ext. intros l Hl.
  rewrite sumZ_mulr, sumZ_mul. unfold dir_total. ring.
Qed.
End Energy.

(*@ C31_energy *)
Lemma energy : forall L N lam J_min J spin spin0 mr psi phi flm sz Ls,
  1 <= L -> 1 <= N <= L -> (1 < lam)%R ->
  is_filters L N J_min lam spin spin0 psi phi -> j_max L lam = Ok J ->
  (forall j, LN_j L j N lam mr = Ok (sz j)) -> scal_bandlimit L J_min lam mr = Ok Ls ->
  harmonic L spin flm ->
  (sumZ J_min (J + 1) (fun j => energy3 (wcoefs L psi flm sz j)) + energy2 (scaling_coefs L phi flm Ls)
  = sumZ 0 L (fun l => dir_total L psi phi J_min J l *
                       sumZ 0 (2 * L - 1) (fun k => Cmod (get2 flm l k) ^ 2)))%R.
Proof.
  intros L N lam J_min J spin spin0 mr psi phi flm sz Ls HL HN Hlam E EJ Hsz HLs HH.
  pose proof (filt_J L N J_min J spin spin0 lam psi phi HL ltac:(lia) Hlam E EJ) as HF.
  rewrite (sz_eq L N lam mr sz ltac:(lra) Hsz), (Ls_eq L J_min lam mr Ls ltac:(lra) HLs).
  exact (energy_total L N J_min J spin lam mr HL HN Hlam psi phi flm HF HH).
Qed.

(*@ C31_parseval *)
Lemma parseval : forall L N lam J_min J spin spin0 mr psi phi flm sz Ls,
  1 <= L -> 1 <= N <= L -> (1 < lam)%R ->
  is_filters L N J_min lam spin spin0 psi phi -> j_max L lam = Ok J ->
  (forall j, LN_j L j N lam mr = Ok (sz j)) -> scal_bandlimit L J_min lam mr = Ok Ls ->
  harmonic L spin flm ->
  (forall l, Z.abs spin <= l < L -> dir_total L psi phi J_min J l = 1%R) ->
  (sumZ J_min (J + 1) (fun j => energy3 (wcoefs L psi flm sz j)) + energy2 (scaling_coefs L phi flm Ls)
   = energy2 flm)%R.
Proof.
  intros L N lam J_min J spin spin0 mr psi phi flm sz Ls HL HN Hlam E EJ Hsz HLs HH Hadm.
  rewrite (energy L N lam J_min J spin spin0 mr psi phi flm sz Ls) by auto.
  destruct HH as (F1 & F2 & F). unfold energy2. rewrite F1, F2. apply sumZ_ext. intros l Hl.
  destruct (Z_lt_le_dec l (Z.abs spin)) as [Hs|Hs]; [|rewrite Hadm by lia; ring].
  rewrite sumZ_zero; [ring|]. intros k Hk. destruct (Ceq0_dec (get2 flm l k)) as [->|Hne]; [apply Cmod2_0|].
  replace k with (L - 1 + (k - (L - 1))) in Hne by lia. apply F in Hne. lia.
Qed.

(*@E C31_example *)
Lemma ex_c31 : exists psi phi sz Ls, is_filters 5 3 1 2 0 0 psi phi /\ j_max 5 2 = Ok 3 /\
  (forall j, LN_j 5 j 3 2 true = Ok (sz j)) /\ scal_bandlimit 5 1 2 true = Ok Ls /\ harmonic 5 0 (demo_flm 5) /\
  (forall l, 0 <= l < 5 -> dir_total 5 psi phi 1 3 l = 1%R) /\
  (forall l m, 0 <= l < 5 -> Z.abs m <= l -> get2 (demo_flm 5) l (5 - 1 + m) <> RtoC 0).
Proof.
  destruct (v5 3 1 ltac:(lia) ltac:(lia)) as (psi & phi & E & T & _). destruct (s5 3 1 true) as (sz & Ls & E1 & E2).
  exists psi, phi, sz, Ls. repeat (split; [demo_step|]). intros. now apply demo_flm_ne.
Qed.

(*% ** C41: synthesised coefficients stay in the harmonic triangle *)

Lemma sh2_of L spin flm : harmonic L spin flm -> shape2 flm = [L; 2 * L - 1].
Proof. intros (H1 & H2 & _). unfold shape2. now rewrite H1, H2. Qed.
Lemma sh3_of L N L0 a : wigner L N L0 a -> shape3 a = [2 * N - 1; L; 2 * L - 1].
Proof. intros (H1 & H2 & H3 & _). unfold shape3. now rewrite H1, H2, H3. Qed.
Lemma LN_j_szf L N lam mr j : (0 < lam)%R -> LN_j L j N lam mr = Ok (szf L N lam mr j).
Proof. intros. now rewrite LN_j_ok. Qed.
Lemma mapM_coefs O f_wav L N lam J_min J s nside reality mr Ws :
  (forall f L N L0 a, b_wfwd O f L N L0 s reality nside = Ok a -> wigner L N L0 a) ->
  mapM (fun j => let '(Lj, Nj, L0j) := szf L N lam mr j in
    fj <- lrd f_wav (j - J_min) ;; b_wfwd O fj Lj Nj L0j s reality nside) (zrange J_min (J + 1)) = Ok Ws ->
  forall j, J_min <= j <= J -> let '(Lj, Nj, L0j) := szf L N lam mr j in
    wigner Lj Nj L0j (nth (Z.to_nat (j - J_min)) Ws (mk3 0 0 0 (fun _ _ _ => RtoC 0))).
Proof.
  intros H E j Hj. destruct (mapM_inv _ _ _ E) as [Hl Hn]. destruct (Hn (Z.to_nat (j - J_min)) j) as (y & Ey & En).
  { rewrite nth_error_zrange by lia. f_equal. lia. }
  unfold szf in *. apply bind_inv in Ey as (fj & _ & Ey). rewrite (nth_error_nth _ _ _ En). eauto.
Qed.

(*@ C41_harmonic_triangle *)
Lemma syn_tri : forall L N lam J_min J spin spin0 mr psi phi sz Ls W S,
  1 <= L -> 1 <= N <= L -> (1 < lam)%R ->
  is_filters L N J_min lam spin spin0 psi phi -> j_max L lam = Ok J ->
  (forall j, LN_j L j N lam mr = Ok (sz j)) -> scal_bandlimit L J_min lam mr = Ok Ls ->
  harmonic Ls spin S ->
  (forall j, J_min <= j <= J -> let '(Lj, Nj, L0j) := sz j in wigner Lj Nj L0j (W j)) ->
  harmonic L spin (synthesised L J_min J psi phi sz W Ls S) /\
  harmonic L spin (looped_synthesised L J_min J spin psi phi sz W Ls S true) /\
  harmonic L spin (looped_synthesised L J_min J spin psi phi sz W Ls S false).
Proof.
  intros L N lam J_min J spin spin0 mr psi phi sz Ls W S HL HN Hlam E EJ Hsz HLs HS HW.
  pose proof (filt_J L N J_min J spin spin0 lam psi phi HL ltac:(lia) Hlam E EJ) as HF. filt_facts HF.
  rewrite (sz_eq L N lam mr sz ltac:(lra) Hsz) in *. rewrite (Ls_eq L J_min lam mr Ls ltac:(lra) HLs) in *.
  assert (H0 : harmonic L spin (synthesised L J_min J psi phi (szf L N lam mr) W (Ls_of L J_min lam mr) S)).
  { assert (E0 : synthesised L J_min J psi phi (szf L N lam mr) W (Ls_of L J_min lam mr) S
       = syn L N J_min J lam mr psi phi (map W (zrange J_min (J + 1))) S).
    { unfold syn, synthesised. apply mk2_ext. intros l q Hl Hq. cbv zeta. f_equal. apply csumZ_ext. intros j Hj.
      unfold szf. rewrite Tnth_map by lia. reflexivity. }
    rewrite E0. apply (syn_harmonic L N J_min J spin lam mr HL HN Hlam EJ); auto; try lia.
    - apply (f_psi_supp _ _ _ _ _ _ _ _ HF).
    - intros j Hj. rewrite Tnth_map by lia. exact (HW j Hj). }
  split; [exact H0|]. split; [|exact H0].
  destruct H0 as (H1 & H2 & H3). split; [reflexivity|]. split; [reflexivity|]. intros l m Hne.
  pose proof (mk2_nz _ _ _ _ _ Hne) as (B1 & B2).
  unfold looped_synthesised in Hne. rewrite get2_mk in Hne by lia. cbv zeta in Hne.
  replace (L - 1 + m - (L - 1)) with m in Hne by lia.
  destruct ((m <? 0) && (Z.abs spin <=? l) && (l <? Ls_of L J_min lam mr) && (Z.abs m <=? l)) eqn:Eg.
  - rewrite !andb_true_iff, !Z.leb_le, !Z.ltb_lt in Eg. lia.
  - cbn [andb] in Hne. rewrite Eg in Hne. apply H3. unfold synthesised. rewrite get2_mk by lia. cbv zeta.
    replace (L - 1 + m - (L - 1)) with m by lia. exact Hne.
Qed.

(*% hence every field synthesis returns is the inverse transform of such coefficients *)
(*@ C41_synthesis *)
Lemma syn_api : forall O f_wav f_scal L N lam J_min spin s nside reality mr g, 1 <= L -> 1 <= N <= L -> (1 < lam)%R ->
  fwd_coefs_b O spin s nside reality ->
  synthesis O f_wav f_scal L N J_min lam spin 0 s nside reality mr = Ok g ->
  exists flm, harmonic L spin flm /\ b_inv O flm L spin s nside reality = Ok g.
Proof.
  intros O f_wav f_scal L N lam J_min spin s nside reality mr g HL HN Hlam HO E. pose proof E as E0. unfold synthesis in E0.
  apply bind_inv in E0 as (_ & _ & E0). apply bind_inv in E0 as (J & EJ & E0). apply bind_inv in E0 as (Ls & ELs & E0).
  apply bind_inv in E0 as (z & _ & E0). apply bind_inv in E0 as (sl & _ & E0). apply bind_inv in E0 as ([psi phi] & EF & _).
  assert (Hsz : forall j, LN_j L j N lam mr = Ok (szf L N lam mr j)) by (intros; apply LN_j_szf; lra).
  pose proof HO as [HO1 HO2].
  rewrite (synthesis_coefs O f_wav f_scal L N lam J_min J spin s nside reality mr psi phi (szf L N lam mr) Ls) in E; auto.
  - apply bind_inv in E as (_ & _ & E). apply bind_inv in E as (S & ES & E). apply bind_inv in E as (Ws & EW & E).
    eexists. split; [|exact E]. eapply (syn_tri L N lam J_min J spin 0 mr psi phi); eauto; [right; left; exact EF|].
    eapply mapM_coefs; eauto.
  - split; intros; [eapply sh2_of|eapply sh3_of]; eauto.
Qed.

(*@ C41_looped_synthesis *)
Lemma syn_api_looped : forall O f_wav f_scal L N lam J_min spin spin0 s nside reality mr g, 1 <= L -> 1 <= N <= L -> (1 < lam)%R ->
  fwd_coefs_b O spin s nside reality ->
  synthesis_looped O f_wav f_scal L N J_min lam spin spin0 s nside reality mr = Ok g ->
  exists flm, harmonic L spin flm /\ b_inv O flm L spin s nside reality = Ok g.
Proof.
  intros O f_wav f_scal L N lam J_min spin spin0 s nside reality mr g HL HN Hlam HO E. pose proof E as E0. unfold synthesis_looped in E0.
  apply bind_inv in E0 as (_ & _ & E0). apply bind_inv in E0 as (J & EJ & E0). apply bind_inv in E0 as (Ls & ELs & E0).
  apply bind_inv in E0 as (z & _ & E0). apply bind_inv in E0 as (sl & _ & E0). apply bind_inv in E0 as ([psi phi] & EF & _).
  assert (Hsz : forall j, LN_j L j N lam mr = Ok (szf L N lam mr j)) by (intros; apply LN_j_szf; lra).
  pose proof HO as [HO1 HO2].
  rewrite (looped_syn_coefs O f_wav f_scal L N lam J_min J spin spin0 s nside reality mr psi phi (szf L N lam mr) Ls) in E; auto; [|lia].
  apply bind_inv in E as (_ & _ & E). apply bind_inv in E as (S & ES & E). apply bind_inv in E as (Ws & EW & E).
  eexists. split; [|exact E].
  destruct (syn_tri L N lam J_min J spin spin0 mr psi phi (szf L N lam mr) Ls
    (fun j => nth (Z.to_nat (j - J_min)) Ws (mk3 0 0 0 (fun _ _ _ => RtoC 0))) S) as (_ & H1 & H2); eauto; [left; exact EF| |].
  - eapply mapM_coefs; eauto.
  - destruct reality; auto.
Qed.

(*% the coefficients of an analysed signal, and others *)
(*@E C41_example *)
Lemma ex_c41 : exists psi phi sz Ls, is_filters 5 3 1 2 0 0 psi phi /\ j_max 5 2 = Ok 3 /\
  (forall j, LN_j 5 j 3 2 true = Ok (sz j)) /\ scal_bandlimit 5 1 2 true = Ok Ls /\
  harmonic Ls 0 (scaling_coefs 5 phi (demo_flm 5) Ls) /\
  (forall j, 1 <= j <= 3 -> let '(Lj, Nj, L0j) := sz j in wigner Lj Nj L0j (wcoefs 5 psi (demo_flm 5) sz j)).
Proof.
  destruct (v5 3 1 ltac:(lia) ltac:(lia)) as (psi & phi & E & T & _). destruct (s5 3 1 true) as (sz & Ls & E1 & E2).
  exists psi, phi, sz, Ls. repeat (split; [demo_step|]).
  destruct (coefs_real 5 3 2 1 3 0 0 true true psi phi (demo_flm 5) sz Ls) as [[S _] W]; try demo_step.
  split; [exact S|]. intros j Hj. specialize (W j Hj). destruct (sz j) as [[Lj Nj] L0j]. apply W.
Qed.

(*@E C41_synthesis_example *)
Lemma ex_c41_syn : exists f w sc w' sc', fwd_coefs_b demo 0 MW None true /\ b_inv demo (demo_flm 5) 5 0 MW None true = Ok f /\
  synthesis demo w sc 5 3 1 2 0 0 MW None true true = Ok f /\
  synthesis_looped demo w' sc' 5 3 1 2 0 0 MW None true true = Ok f.
Proof.
  destruct (v5 3 1 ltac:(lia) ltac:(lia)) as (psi & phi & E & T & _). destruct (f5 MW true ltac:(now left)) as (f & Ef).
  destruct (l5 3 1 ltac:(lia) ltac:(lia)) as (psi' & phi' & E' & T').
  destruct (rt_vec demo f (demo_flm 5) 5 3 2 1 3 0 MW None true true psi phi) as (w & sc & _ & _ & H); try demo_step.
  destruct (rt_loop demo f (demo_flm 5) 5 3 2 1 3 0 0 MW None true true psi' phi') as (w' & sc' & _ & _ & H'); try demo_step.
  { intros _. split; [reflexivity|demo_step]. }
  exists f, w, sc, w', sc'. repeat (split; [demo_step|]). split; [apply H|apply H']; demo_step.
Qed.

(*% ** C44: the scattering flag *)

Lemma lset_map {A B} (h : A -> B) l n v : map h (lset l n v) = lset (map h l) n (h v).
Proof. revert n. induction l as [|x l IH]; intros [|n]; simpl; auto. now rewrite IH. Qed.
Lemma lset_lset {A} (l : list A) n v w : lset (lset l n v) n w = lset l n w.
Proof. revert n. induction l as [|x l IH]; intros [|n]; simpl; auto. now rewrite IH. Qed.
Lemma lset_len {A} (l : list A) n v : length (lset l n v) = length l.
Proof. revert n. induction l as [|x l IH]; intros [|n]; simpl; auto. Qed.
Lemma idx_range n i k : idx n i = Ok k -> 0 <= k < n.
Proof.
  unfold idx. destruct ((- n <=? i) && (i <? n)) eqn:E; [|discriminate]. rewrite andb_true_iff, Z.leb_le, Z.ltb_lt in E.
  intros H. apply Ok_inj in H. destruct (Z.ltb_spec i 0); lia.
Qed.

(** two loops whose states stay related by h run alike *)
Lemma for_sim {S T} (h : S -> T) is s b b' : (forall i s, b' i (h s) = (s' <- b i s ;; Ok (h s'))) ->
  for_ is (h s) b' = (s' <- for_ is s b ;; Ok (h s')).
Proof.
  intros H. revert s. induction is as [|i is IH]; intros s; [reflexivity|]. cbn [for_]. rewrite H.
  destruct (b i s); cbn [bind]; [apply IH|reflexivity].
Qed.

Lemma nd_abs_zeros sh z : zeros_nd sh = Ok z -> nd_abs z = z.
Proof.
  unfold zeros_nd. destruct (forallb _ _); [|discriminate]. intros [= <-]. unfold nd_abs. cbn [nshape ndat]. f_equal.
  apply functional_extensionality. intros. now rewrite Cmod_0.
Qed.
Lemma construct_f_abs L N J_min lam s nside mr w : construct_f L N J_min lam s nside mr = Ok w -> map nd_abs w = w.
Proof.
  unfold construct_f. intros H. apply bind_inv in H as (J & _ & H). revert H. set (b := fun _ _ => _).
  assert (Hi : map nd_abs (@nil nd) = []) by reflexivity. revert Hi. generalize (@nil nd) as acc.
  induction (zrange J_min (J + 1)) as [|j l IH]; intros acc Ha H; cbn [for_] in H.
  - apply Ok_inj in H. now subst.
  - apply bind_inv in H as (acc' & Hb & H). apply (IH acc'); auto. unfold b in Hb.
    apply bind_inv in Hb as (sh & _ & Hb). apply bind_inv in Hb as (z & Ez & Hb). apply Ok_inj in Hb. subst acc'.
    rewrite map_app, Ha. cbn [map]. now rewrite (nd_abs_zeros sh z Ez).
Qed.

(*@ C44_scattering_is_modulus *)
Lemma scattering_abs : forall O f L N J_min lam spin spin0 s nside reality mr,
  analysis O f L N J_min lam spin spin0 s nside reality mr true
  = (' (w, sc) <- analysis O f L N J_min lam spin spin0 s nside reality mr false ;; Ok (map nd_abs w, sc)).
Proof.
  intros. unfold analysis.
  destruct (j_max L lam); cbn [bind]; [|reflexivity].
  destruct (scal_bandlimit L J_min lam mr); cbn [bind]; [|reflexivity].
  destruct (construct_flm L J_min lam mr); cbn [bind]; [|reflexivity].
  destruct (construct_flmn L N J_min lam mr) as [lmn|]; cbn [bind]; [|reflexivity].
  destruct (construct_f L N J_min lam s _ false) as [fw|] eqn:Efw; cbn [bind]; [|reflexivity].
  destruct (filters_directional_vectorised L N J_min lam spin spin0) as [[psi phi]|]; cbn [bind]; [|reflexivity].
  destruct (einsum_ijk_j_ijk _ _); cbn [bind]; [|reflexivity].
  destruct (b_fwd O f L spin s nside reality); cbn [bind]; [|reflexivity].
  match goal with |- bind (for_ ?is ?st ?b1) _ = bind (bind (for_ _ _ ?b2) _) _ =>
    assert (Hs : for_ is (lmn, fw) b1 = (st' <- for_ is (lmn, fw) b2 ;; Ok (fst st', map nd_abs (snd st')))) end.
  { rewrite <- (construct_f_abs _ _ _ _ _ _ _ _ Efw) at 1.
    refine (for_sim (fun st : list (arr3 C) * list nd => (fst st, map nd_abs (snd st))) _ (lmn, fw) _ _ _).
    intros j [l w]. cbn [fst snd].
    destruct (LN_j _ _ _ _ _) as [[[Lj Nj] L0j]|]; cbn [bind]; [|reflexivity].
    destruct (lrd l _); cbn [bind]; [|reflexivity]. destruct (islice3 _ _ _ _); cbn [bind]; [|reflexivity].
    destruct (einsum_lm_ln_nlm _ _); cbn [bind]; [|reflexivity]. destruct (upd3 _ _ _ _ _ _); cbn [bind]; [|reflexivity].
    destruct (lwr l _ _); cbn [bind]; [|reflexivity]. destruct (b_winv _ _ _ _ _ _ _ _) as [y|]; cbn [bind]; [|reflexivity].
    unfold lwr, lrd. rewrite map_length. destruct (idx (Z.of_nat (length w)) _) as [k|] eqn:Ek; cbn [bind]; [|reflexivity].
    rewrite lset_len, map_length, Ek. cbn [bind]. rewrite nth_error_lset by (rewrite map_length; apply idx_range in Ek; lia).
    rewrite Nat.eqb_refl. cbn [bind fst snd]. now rewrite lset_lset, lset_map. }
  rewrite Hs. rewrite !bind_assoc. apply bind_ext. intros [l w] _. cbn [bind fst snd].
  rewrite bind_assoc. apply bind_ext. intros p _. rewrite bind_assoc. apply bind_ext. intros q _.
  rewrite bind_assoc. apply bind_ext. intros sc _. reflexivity.
Qed.

(*@E C44_example *)
Lemma ex_c44 : exists f w sc,
  analysis demo f 5 3 1 2 0 0 MW None true true true = Ok (map nd_abs w, sc) /\
  analysis demo f 5 3 1 2 0 0 MW None true true false = Ok (w, sc).
Proof.
  destruct ex_c07 as (f & w & sc & w' & sc' & _ & _ & _ & _ & E & _). exists f, w, sc.
  rewrite scattering_abs, E. split; reflexivity.
Qed.

(*% ** C42: more orders than the filters hold (N > L) *)

(*@ C42_slice_in_range *)
Lemma slice_in : forall L Nj, 1 <= Nj <= L ->
  selected (2 * L - 1) (between2 (L - Nj) (L - 1 + Nj))
  = map (fun i => L - 1 + (- (Nj - 1) + 2 * i)) (zrange 0 Nj).
Proof.
  intros L Nj H. unfold selected. replace (L - 1 + Nj) with (L - Nj + 2 * Nj - 1) by lia.
  destruct (between2_len (2 * L - 1) (L - Nj) Nj) as [E1 E2]; try lia. rewrite E1.
  apply map_ext. intros i. unfold sl_at. rewrite E2. cbn [s_st between2]. lia.
Qed.

Lemma wrap_len L Nj : 1 <= L -> L < Nj ->
  sl_start (2 * L - 1) (between2 (L - Nj) (L - 1 + Nj)) = Z.max 0 (3 * L - 1 - Nj) /\
  sl_len (2 * L - 1) (between2 (L - Nj) (L - 1 + Nj)) = Z.min L ((Nj - L + 1) / 2).
Proof.
  intros HL H. unfold sl_len, sl_start, sl_stop, sl_bound, between2, range_len. cbn [s_lo s_hi s_st].
  replace (L - Nj <? 0) with true by zb. replace (L - 1 + Nj <? 0) with false by zb.
  rewrite (Z.min_r (L - 1 + Nj)) by lia. replace (L - Nj + (2 * L - 1)) with (3 * L - 1 - Nj) by lia.
  split; [reflexivity|]. replace (Z.max 0 (3 * L - 1 - Nj) <? 2 * L - 1) with true by zb.
  Z.div_mod_to_equations. lia.
Qed.

(*@ C42_slice_wraps *)
Lemma slice_wraps : forall L Nj, 1 <= L -> L < Nj ->
  selected (2 * L - 1) (between2 (L - Nj) (L - 1 + Nj))
  = map (fun i => Z.max 0 (3 * L - 1 - Nj) + 2 * i) (zrange 0 (Z.min L ((Nj - L + 1) / 2))) /\
  Z.min L ((Nj - L + 1) / 2) < Nj.
Proof.
  intros L Nj HL H. split; [|Z.div_mod_to_equations; lia]. unfold selected. destruct (wrap_len L Nj HL H) as [E1 E2].
  rewrite E2. apply map_ext. intros i. unfold sl_at. rewrite E1. cbn [s_st between2]. lia.
Qed.

Section Wrap.
Variables (L Lj Nj L0 j : Z) (sz : Z -> Z * Z * Z) (psi : arr3 C).
Hypothesis HL : 1 <= L.
Hypothesis HLj : 0 <= L0 <= Lj.
Hypothesis HLj' : 1 <= Lj <= L.
Hypothesis Hsz : sz j = (Lj, Nj, L0).
Hypothesis P0 : 0 <= j < dim0 psi.
Hypothesis P1 : dim1 psi = L.
Hypothesis P2 : dim2 psi = 2 * L - 1.

Lemma azim_get l q : 0 <= l < L -> 0 <= q < 2 * L - 1 ->
  get3 (azimuthal L sz psi) j l q = if Nj <=? L then get3 psi j l q else RtoC 0.
Proof. intros. unfold azimuthal. rewrite get3_mk by lia. now rewrite Hsz. Qed.

(** the columns selected at a scale with L < Nj <= L + 2 *)
Lemma islice_wrap w : L < Nj <= L + 2 -> 2 <= L -> dim0 w = dim0 psi -> dim1 w = L -> dim2 w = 2 * L - 1 ->
  islice3 w j (between L0 Lj) (between2 (L - Nj) (L - 1 + Nj))
  = Ok (mk2 (Lj - L0) 1 (fun l _ => get3 w j (L0 + l) (3 * L - 1 - Nj))).
Proof.
  intros HN HL2 W0 W1 W2. unfold islice3. rewrite idx_ok by lia. cbn [bind]. rewrite W1, W2.
  destruct (wrap_len L Nj HL ltac:(lia)) as [E1 E2].
  destruct (slice_between L L0 Lj) as (E3 & E4 & _); try lia.
  rewrite E2, E3. replace (Z.min L ((Nj - L + 1) / 2)) with 1 by (Z.div_mod_to_equations; lia).
  f_equal. apply mk2_ext. intros l i Hl Hi. unfold sl_at. rewrite E1, E4. cbn [s_st between between2]. f_equal; lia.
Qed.

Hypothesis Hz : L < Nj <= L + 2 -> 2 <= L /\ forall l, 0 <= l < L -> get3 psi j l (3 * L - 1 - Nj) = RtoC 0.

Lemma wpsi_azim flm : Nj <= L -> 1 <= Nj ->
  wavelet_coefs L (azimuthal L sz psi) flm j Lj Nj L0 = wavelet_coefs L psi flm j Lj Nj L0.
Proof.
  intros H H'. unfold wavelet_coefs. apply mk3_ext. intros a l b Ha Hl Hb. cbv zeta.
  rewrite azim_get by lia. now replace (Nj <=? L) with true by zb.
Qed.
Lemma wpart_azim T l m : Nj <= L -> 1 <= Nj -> 0 <= l < L ->
  wavelet_part L (azimuthal L sz psi) j Lj Nj L0 T l m = wavelet_part L psi j Lj Nj L0 T l m.
Proof.
  intros H H' Hl. unfold wavelet_part. destruct (_ && _); [|reflexivity]. apply csumZ_ext. intros n Hn.
  rewrite azim_get by lia. now replace (Nj <=? L) with true by zb.
Qed.
Lemma wcoefs_zero flm : L < Nj <= L + 2 ->
  wavelet_coefs L (azimuthal L sz psi) flm j Lj Nj L0 = mk3 (2 * Nj - 1) Lj (2 * Lj - 1) (fun _ _ _ => RtoC 0).
Proof.
  intros H. unfold wavelet_coefs. apply mk3_ext. intros a l b Ha Hl Hb. cbv zeta.
  destruct (_ && _); [|reflexivity].
  assert (E : get3 (azimuthal L sz psi) j l (L - 1 + (a - (Nj - 1))) = RtoC 0).
  { unfold azimuthal. cbn [get3 mk3]. rewrite Hsz. replace (Nj <=? L) with false by zb. now destruct (_ && _). }
  rewrite E, Cconj_0. ring.
Qed.

Lemma an_step flm : 1 <= Nj <= L + 2 -> rows flm = L -> cols flm = 2 * L - 1 ->
  (w <- islice3 (wpsi psi) j (between L0 Lj) (between2 (L - Nj) (L - 1 + Nj)) ;;
   x <- einsum_lm_ln_nlm (slice2 flm (between L0 Lj) (between (L - Lj) (L - 1 + Lj))) w ;;
   upd3 assign (mk3 (2 * Nj - 1) Lj (2 * Lj - 1) (fun _ _ _ => RtoC 0)) every2 (from L0) full x)
  = Ok (wavelet_coefs L (azimuthal L sz psi) flm j Lj Nj L0).
Proof.
  intros HN F1 F2. destruct (Z_le_gt_dec Nj L) as [H|H].
  - rewrite islice_ok by (cbn [dim0 dim1 dim2 mk3 wpsi]; lia). cbn [bind]. rewrite einsum_an by lia. cbn [bind].
    rewrite upd_an by (auto; lia). now rewrite wpsi_azim by lia.
  - destruct Hz as [HL2 Hzz]; [lia|]. rewrite islice_wrap by (cbn [dim0 dim1 dim2 mk3 wpsi]; lia). cbn [bind].
    rewrite flm_slice by lia. unfold einsum_lm_ln_nlm. cbn [rows cols mk2]. rewrite bdim_refl. cbn [bind].
    unfold upd3. cbn [dim0 dim1 dim2 mk3].
    destruct (every2_len Nj) as [E1 E2]; try lia. destruct (from_len Lj L0) as [E3 E4]; try lia.
    destruct (full_len (2 * Lj - 1)) as [E5 E6]; try lia. rewrite E1, E3, E5. unfold bok. rewrite !Z.eqb_refl.
    replace (1 =? Nj) with false by zb. cbn [orb andb]. f_equal. rewrite wcoefs_zero by lia.
    apply mk3_ext. intros a l b Ha Hl Hb. rewrite get3_mk by lia. rewrite from_mem by lia.
    destruct (sl_mem (2 * Nj - 1) every2 a); cbn [andb]; [|reflexivity].
    destruct (Z.leb_spec L0 l); cbn [andb]; [|reflexivity]. rewrite mem_full by lia. unfold assign.
    unfold sl_pos. rewrite E4, E6. cbn [s_st from full]. rewrite !Z.sub_0_r, !Z.div_1_r.
    rewrite !(bi_in (Lj - L0)), !(bi_in (2 * Lj - 1)) by lia. match goal with |- context [bi 1 ?x] => change (bi 1 x) with 0 end.
    rewrite get3_mk by lia. rewrite !(bi_in (Lj - L0)) by lia. rewrite !get2_mk by lia. unfold wpsi. rewrite get3_mk by lia.
    rewrite Hzz by lia. rewrite Cconj_0. ring.
Qed.

Lemma sy_step g T : 1 <= Nj <= L + 2 -> dim0 T = 2 * Nj - 1 -> dim1 T = Lj -> dim2 T = 2 * Lj - 1 ->
  (w <- islice3 psi j (between L0 Lj) (between2 (L - Nj) (L - 1 + Nj)) ;;
   x <- einsum_ln_nlm_lm w (slice3 T every2 (from L0) full) ;;
   upd2 Cplus (mk2 L (2 * L - 1) g) (between L0 Lj) (between (L - Lj) (L - 1 + Lj)) x)
  = Ok (mk2 L (2 * L - 1) (fun l q =>
          Cplus (g l q) (wavelet_part L (azimuthal L sz psi) j Lj Nj L0 T l (q - (L - 1))))).
Proof.
  intros HN T0 T1 T2. destruct (Z_le_gt_dec Nj L) as [H|H].
  - rewrite islice_ok by lia. cbn [bind]. rewrite einsum_sy by lia. cbn [bind]. rewrite upd_sy by lia. f_equal.
    apply mk2_ext. intros. now rewrite wpart_azim by lia.
  - destruct Hz as [HL2 Hzz]; [lia|]. rewrite islice_wrap by lia. cbn [bind].
    unfold einsum_ln_nlm_lm, slice3. rewrite T0, T1, T2.
    destruct (every2_len Nj) as [E1 E2]; try lia. destruct (from_len Lj L0) as [E3 E4]; try lia.
    destruct (full_len (2 * Lj - 1)) as [E5 E6]; try lia. rewrite E1, E3, E5. cbn [rows cols mk2 dim0 dim1 dim2 mk3].
    rewrite bdim_refl. cbn [bind]. unfold bdim. replace (1 =? Nj) with false by zb. cbn [Z.eqb Pos.eqb bind].
    unfold upd2. cbn [rows cols mk2].
    destruct (slice_between L L0 Lj) as (D1 & D2 & _); try lia.
    destruct (slice_between (2 * L - 1) (L - Lj) (L - 1 + Lj)) as (D3 & D4 & _); try lia.
    rewrite D1, D3. replace (L - 1 + Lj - (L - Lj)) with (2 * Lj - 1) by lia.
    unfold bok. rewrite !Z.eqb_refl. cbn [orb andb]. f_equal. apply mk2_ext. intros l q Hl Hq.
    rewrite !mem_between, !pos_between by lia. rewrite get2_mk by lia.
    assert (Ez : wavelet_part L (azimuthal L sz psi) j Lj Nj L0 T l (q - (L - 1)) = RtoC 0).
    { unfold wavelet_part. destruct (_ && _); [|reflexivity]. apply csumZ_zero. intros n Hn.
      destruct (Z.even _); [|reflexivity].
      assert (E : get3 (azimuthal L sz psi) j l (L - 1 + n) = RtoC 0).
      { unfold azimuthal. cbn [get3 mk3]. rewrite Hsz. replace (Nj <=? L) with false by zb. now destruct (_ && _). }
      rewrite E. ring. }
    rewrite Ez. destruct (Z.leb_spec L0 l); cbn [andb]; [|ring]. destruct (Z.ltb_spec l Lj); cbn [andb]; [|ring].
    destruct (Z.leb_spec (L - Lj) q); cbn [andb]; [|ring]. destruct (Z.ltb_spec q (L - 1 + Lj)); [|ring].
    f_equal. rewrite !bi_in by lia. rewrite get2_mk by lia. apply zcsum_zero. intros n Hn.
    rewrite !(bi_in (Lj - L0)) by lia. rewrite get2_mk by (unfold bi; cbn [Z.eqb Pos.eqb]; lia).
    rewrite Hzz by lia. ring.
Qed.

(** at a scale with Nj >= L + 3 both raise ValueError *)
Lemma an_step_err flm op a : L + 3 <= Nj -> rows flm = L -> cols flm = 2 * L - 1 -> dim0 a = 2 * Nj - 1 ->
  (w <- islice3 (wpsi psi) j (between L0 Lj) (between2 (L - Nj) (L - 1 + Nj)) ;;
   x <- einsum_lm_ln_nlm (slice2 flm (between L0 Lj) (between (L - Lj) (L - 1 + Lj))) w ;;
   upd3 op a every2 (from L0) full x) = Err ValueError \/ L = 1.
Proof.
  clear Hz. intros HN F1 F2 A0. destruct (Z.eq_dec L 1) as [->|HL1]; [now right|]. left.
  unfold islice3. cbn [dim0 dim1 dim2 mk3 wpsi]. rewrite idx_ok by lia. cbn [bind]. rewrite P1, P2.
  destruct (wrap_len L Nj HL ltac:(lia)) as [E1 E2].
  destruct (slice_between L L0 Lj) as (E3 & E4 & _); try lia.
  rewrite flm_slice by lia. unfold einsum_lm_ln_nlm. cbn [rows cols mk2]. rewrite E3, bdim_refl. cbn [bind].
  unfold upd3. cbn [dim0 dim1 dim2 mk3]. rewrite A0. destruct (every2_len Nj) as [D1 D2]; try lia. rewrite D1, E2.
  unfold bok at 1. replace (Z.min L ((Nj - L + 1) / 2) =? Nj) with false by (symmetry; apply Z.eqb_neq; Z.div_mod_to_equations; lia).
  now replace (Z.min L ((Nj - L + 1) / 2) =? 1) with false by (symmetry; apply Z.eqb_neq; Z.div_mod_to_equations; lia).
Qed.
Lemma sy_step_err T (k : arr2 C -> res (arr2 C)) : L + 3 <= Nj -> 2 <= L -> dim0 T = 2 * Nj - 1 -> dim1 T = Lj ->
  (w <- islice3 psi j (between L0 Lj) (between2 (L - Nj) (L - 1 + Nj)) ;;
   x <- einsum_ln_nlm_lm w (slice3 T every2 (from L0) full) ;; k x) = Err ValueError.
Proof.
  clear Hz. intros HN HL2 T0 T1. unfold islice3. rewrite idx_ok by lia. cbn [bind]. rewrite P1, P2.
  destruct (wrap_len L Nj HL ltac:(lia)) as [E1 E2].
  destruct (slice_between L L0 Lj) as (E3 & E4 & _); try lia.
  unfold einsum_ln_nlm_lm, slice3. cbn [rows cols mk2 dim0 dim1 dim2 mk3]. rewrite T0, T1.
  destruct (every2_len Nj) as [D1 D2]; try lia. destruct (from_len Lj L0) as [D3 D4]; try lia.
  rewrite D1, D3, E3, E2, bdim_refl. cbn [bind]. unfold bdim.
  replace (Z.min L ((Nj - L + 1) / 2) =? Nj) with false by (symmetry; apply Z.eqb_neq; Z.div_mod_to_equations; lia).
  replace (Z.min L ((Nj - L + 1) / 2) =? 1) with false by (symmetry; apply Z.eqb_neq; Z.div_mod_to_equations; lia).
  now replace (Nj =? 1) with false by zb.
Qed.
End Wrap.

Section Any.
Variables (L N J_min J spin : Z) (lam : R) (mr : bool) (psi : arr3 C) (phi : arr1 R).
Hypothesis HL : 1 <= L.
Hypothesis HN : 1 <= N.
Hypothesis Hlam : (1 < lam)%R.
Hypothesis HF : filt L N J_min J spin lam psi phi.
Notation Lj j := (Lj_of L j lam mr).
Notation Nj j := (Nj_of L j N lam mr).
Notation L0 j := (L0_of j lam mr).
Notation Ls := (Ls_of L J_min lam mr).

Lemma L_two : 2 <= L.
Proof.
  filt_facts HF. destruct (Z.eq_dec L 1) as [E|]; [|lia]. exfalso. rewrite E in EJ0.
  apply j_max_iff in EJ0; [|lia|assumption]. assert (J = 0); [|lia].
  apply (j_max_unique 1 lam J 0 Hlam EJ0). rewrite pw_0. split; [|lra].
  pose proof (pw_lt lam (0 - 1) 0 Hlam ltac:(lia)) as X. rewrite pw_0 in X. exact X.
Qed.
Lemma Nj_bound j : 0 <= j <= J -> mr = true \/ N <= L + 2 -> Nj j <= L + 2.
Proof.
  intros Hj H. pose proof (Lj_range L j lam mr HL ltac:(lra)).
  destruct (Nj_facts L j N lam mr HL ltac:(lra) HN) as (H1 & H2 & H3 & H4).
  destruct mr; [specialize (H1 eq_refl)|specialize (H2 eq_refl)]; destruct H as [H|H]; try discriminate; lia.
Qed.
Lemma col_zero j : 0 <= j <= J -> L < Nj j <= L + 2 ->
  2 <= L /\ forall l, 0 <= l < L -> get3 psi j l (3 * L - 1 - Nj j) = RtoC 0.
Proof.
  intros Hj H. pose proof L_two. split; [assumption|]. intros l Hl.
  destruct (Ceq0_dec (get3 psi j l (3 * L - 1 - Nj j))) as [E|E]; [exact E|]. exfalso.
  replace (3 * L - 1 - Nj j) with (L - 1 + (2 * L - Nj j)) in E by lia.
  pose proof (f_psi_supp _ _ _ _ _ _ _ _ HF mr j l (2 * L - Nj j) Hj Hl ltac:(lia) E) as (_ & _ & _ & Hev & _).
  apply Z.even_spec in Hev as (k & Hk). lia.
Qed.
End Any.


(*@ C42_analysis_any_number_of_orders *)
Lemma analysis_any : forall O f L N lam J_min J spin s nside reality mr scattering psi phi sz Ls,
  1 <= L -> 1 <= N -> mr = true \/ N <= L + 2 -> (1 < lam)%R ->
  filters_directional_vectorised L N J_min lam spin 0 = Ok (psi, phi) -> j_max L lam = Ok J ->
  s <> Unknown -> fwd_shapes_b O spin s nside reality ->
  (forall j, LN_j L j N lam mr = Ok (sz j)) -> scal_bandlimit L J_min lam mr = Ok Ls ->
  analysis O f L N J_min lam spin 0 s nside reality mr scattering
  = (flm <- b_fwd O f L spin s nside reality ;;
     w <- mapM (fun j => let '(Lj, Nj, L0j) := sz j in
                 b_winv O (wcoefs L (azimuthal L sz psi) flm sz j) Lj Nj L0j s reality nside) (zrange J_min (J + 1)) ;;
     sc <- b_inv O (scaling_coefs L phi flm Ls) Ls spin s nside reality ;;
     Ok (if scattering then map nd_abs w else w, sc)).
Proof.
  intros O f L N lam J_min J spin s nside reality mr scattering psi phi sz Ls HL HN HNL Hlam E EJ Hs (Hf & _) Hsz HLs.
  pose proof (filt_J L N J_min J spin 0 lam psi phi HL ltac:(lia) Hlam (or_intror (or_introl E)) EJ) as HF.
  filt_facts HF. rewrite (sz_eq L N lam mr sz ltac:(lra) Hsz), (Ls_eq L J_min lam mr Ls ltac:(lra) HLs).
  assert (H0 : (0 < lam)%R) by lra. destruct Hpsi as (P0 & P1 & P2). set (az := azimuthal L (szf L N lam mr) psi).
  assert (W : analysis O f L N J_min lam spin 0 s nside reality mr false
    = (flm <- b_fwd O f L spin s nside reality ;;
       w <- mapM (fun j => b_winv O (wc L N lam mr az flm j) (Lj_of L j lam mr) (Nj_of L j N lam mr) (L0_of j lam mr)
                     s reality nside) (zrange J_min (J + 1)) ;;
       sc <- b_inv O (scaling_coefs L phi flm (Ls_of L J_min lam mr)) (Ls_of L J_min lam mr) spin s nside reality ;;
       Ok (w, sc))).
  { unfold analysis. rewrite EJ. cbn [bind]. rewrite scal_bandlimit_ok by assumption. cbn [bind].
    rewrite construct_flm_ok by assumption. cbn [bind].
    rewrite (construct_flmn_ok L N J_min lam mr J) by (auto; lia). cbn [bind].
    rewrite (construct_f_ok L N J_min lam s _ false J) by (auto; try lia; destruct s; cbn; auto; congruence). cbn [bind].
    rewrite E. cbn [bind]. rewrite (wpsi_ok L) by lia. cbn [bind].
    apply bind_ext. intros flm Ef. destruct (sh2 _ _ _ (Hf f L flm Ef)) as [F1 F2].
    rewrite (loop_lwr (flmn_zero L N lam mr) (wc L N lam mr az flm) _
       (fun j => b_winv O (wc L N lam mr az flm j) (Lj_of L j lam mr) (Nj_of L j N lam mr) (L0_of j lam mr)
                   s reality nside) (fun y => y)); [|lia|].
    - rewrite bind_assoc. apply bind_ext. intros w _. cbn [bind].
      pose proof (Ls_range L J_min lam mr HL H0).
      rewrite (phi4_ok phi L) by auto. cbn [bind]. rewrite scal_an by auto. cbn [bind].
      apply bind_ext. intros sc _. now rewrite map_id.
    - intros j l fw Hj Hl Hfw. rewrite LN_j_ok by assumption. cbn [bind]. rewrite Hl. cbn [bind].
      pose proof (sz_facts0 L N J lam mr HL HN Hlam EJ j ltac:(lia)) as (Z1 & Z2 & Z3).
      pose proof (an_step L (Lj_of L j lam mr) (Nj_of L j N lam mr) (L0_of j lam mr) j (szf L N lam mr) psi
        HL Z1 Z2 eq_refl ltac:(lia) P1 P2 (col_zero L N J_min J spin lam mr psi phi HL Hlam HF j ltac:(lia)) flm) as S.
      assert (HNb : 1 <= Nj_of L j N lam mr <= L + 2).
      { split; [lia|]. apply (Nj_bound L N J lam mr); auto; lia. }
      specialize (S HNb F1 F2). unfold flmn_zero.
      destruct (islice3 _ _ _ _) as [x1|]; cbn [bind] in S |- *; [|discriminate S].
      destruct (einsum_lm_ln_nlm _ _) as [x2|]; cbn [bind] in S |- *; [|discriminate S].
      rewrite S. cbn [bind]. fold az. fold (wc L N lam mr az flm j).
      destruct (lwr l (j - J_min) (wc L N lam mr az flm j)); cbn [bind]; auto. }
  destruct scattering.
  - rewrite scattering_abs, W, bind_assoc. apply bind_ext. intros flm _. rewrite bind_assoc. apply bind_ext. intros w _.
    rewrite bind_assoc. apply bind_ext. intros sc _. reflexivity.
  - exact W.
Qed.

(*% at the scales with Nj > L the coefficients sent to the inverse Wigner transform are all zero *)
(*@ C42_orders_lost *)
Lemma orders_lost : forall L psi flm sz j Lj Nj L0j, sz j = (Lj, Nj, L0j) -> L < Nj ->
  forall a l b, get3 (wcoefs L (azimuthal L sz psi) flm sz j) a l b = RtoC 0.
Proof.
  intros L psi flm sz j Lj Nj L0j E H a l b. unfold wcoefs. rewrite E. unfold wavelet_coefs. cbn [get3 mk3].
  destruct (_ && _); [|reflexivity]. destruct (_ && _); [|reflexivity].
  assert (E0 : get3 (azimuthal L sz psi) j l (L - 1 + (a - (Nj - 1))) = RtoC 0).
  { unfold azimuthal. cbn [get3 mk3]. rewrite E. replace (Nj <=? L) with false by zb. now destruct (_ && _). }
  rewrite E0, Cconj_0. ring.
Qed.
(*% the looped analysis sends the right ones, for every number of orders *)
(*@ C42_looped_any_number_of_orders *)
Lemma looped_any : forall O f L N lam J_min J spin spin0 s nside (reality : bool) mr psi phi sz Ls,
  1 <= L -> 1 <= N -> (1 < lam)%R ->
  filters_directional L N J_min lam spin spin0 = Ok (psi, phi) -> j_max L lam = Ok J ->
  sampling_known s nside ->
  (forall flm, b_fwd O f L spin s nside reality = Ok flm -> is_harmonic L spin reality flm) ->
  (forall j, LN_j L j N lam mr = Ok (sz j)) -> scal_bandlimit L J_min lam mr = Ok Ls ->
  analysis_looped O f L N J_min lam spin spin0 s nside reality mr
  = (flm <- b_fwd O f L spin s nside reality ;;
     w <- mapM (fun j => let '(Lj, Nj, L0j) := sz j in
                 b_winv O (wcoefs L psi flm sz j) Lj Nj L0j s reality nside) (zrange J_min (J + 1)) ;;
     sc <- b_inv O (scaling_coefs L phi flm Ls) Ls spin s nside reality ;;
     Ok (w, sc)).
Proof. exact looped_coefs. Qed.

(*@ C42_analysis_too_many_orders *)
Lemma analysis_many : forall O f L N lam J_min J spin s nside reality scattering psi phi,
  1 <= L -> L + 3 <= N -> (1 < lam)%R ->
  filters_directional_vectorised L N J_min lam spin 0 = Ok (psi, phi) -> j_max L lam = Ok J ->
  s <> Unknown -> fwd_shapes_b O spin s nside reality ->
  analysis O f L N J_min lam spin 0 s nside reality false scattering
  = (_ <- b_fwd O f L spin s nside reality ;; Err ValueError).
Proof.
  intros O f L N lam J_min J spin s nside reality scattering psi phi HL HN Hlam E EJ Hs (Hf & _).
  pose proof (filt_J L N J_min J spin 0 lam psi phi HL ltac:(lia) Hlam (or_intror (or_introl E)) EJ) as HF.
  filt_facts HF. assert (H0 : (0 < lam)%R) by lra. destruct Hpsi as (P0 & P1 & P2).
  unfold analysis. rewrite EJ. cbn [bind]. rewrite scal_bandlimit_ok by assumption. cbn [bind].
  rewrite construct_flm_ok by assumption. cbn [bind].
  rewrite (construct_flmn_ok L N J_min lam false J) by (auto; lia). cbn [bind].
  rewrite (construct_f_ok L N J_min lam s _ false J) by (auto; try lia; destruct s; cbn; auto; congruence). cbn [bind].
  rewrite E. cbn [bind]. rewrite (wpsi_ok L) by lia. cbn [bind].
  apply bind_ext. intros flm Ef. destruct (sh2 _ _ _ (Hf f L flm Ef)) as [F1 F2].
  rewrite (zrange_cons J_min) by lia. cbn [for_ map]. rewrite LN_j_ok by assumption. cbn [bind].
  replace (J_min - J_min) with 0 by lia.
  unfold lrd at 1. rewrite idx_ok by (cbn [length]; lia). cbn [bind Z.to_nat nth_error].
  pose proof (sz_facts0 L N J lam false HL ltac:(lia) Hlam EJ J_min ltac:(lia)) as (Z1 & Z2 & Z3).
  assert (EN : Nj_of L J_min N lam false = N).
  { destruct (Nj_facts L J_min N lam false HL H0 ltac:(lia)) as (_ & H & _). auto. }
  destruct (an_step_err L (Lj_of L J_min lam false) (Nj_of L J_min N lam false) (L0_of J_min lam false) J_min psi
     HL Z1 Z2 ltac:(lia) P1 P2 flm assign (flmn_zero L N lam false J_min) ltac:(lia) F1 F2 eq_refl) as [S|S].
  2:{ pose proof (L_two L N J_min J spin lam psi phi HL Hlam HF). lia. }
  destruct (islice3 _ _ _ _) as [x1|]; cbn [bind] in S |- *; [|injection S as ->; reflexivity].
  destruct (einsum_lm_ln_nlm _ _) as [x2|]; cbn [bind] in S |- *; [|injection S as ->; reflexivity].
  rewrite S. reflexivity.
Qed.

(*@ C42_synthesis_any_number_of_orders *)
Lemma synthesis_any : forall O f_wav f_scal L N lam J_min J spin s nside reality mr psi phi sz Ls,
  1 <= L -> 1 <= N -> mr = true \/ N <= L + 2 -> (1 < lam)%R ->
  filters_directional_vectorised L N J_min lam spin 0 = Ok (psi, phi) -> j_max L lam = Ok J ->
  fwd_shapes_b O spin s nside reality ->
  (forall j, LN_j L j N lam mr = Ok (sz j)) -> scal_bandlimit L J_min lam mr = Ok Ls ->
  synthesis O f_wav f_scal L N J_min lam spin 0 s nside reality mr
  = (_ <- wavelet_shape_check f_wav f_scal L N J_min lam s nside mr ;;
     S <- b_fwd O f_scal Ls spin s nside reality ;;
     Ws <- mapM (fun j => let '(Lj, Nj, L0j) := sz j in
                  fj <- lrd f_wav (j - J_min) ;; b_wfwd O fj Lj Nj L0j s reality nside) (zrange J_min (J + 1)) ;;
     b_inv O (synthesised L J_min J (azimuthal L sz psi) phi sz
                (fun j => nth (Z.to_nat (j - J_min)) Ws (mk3 0 0 0 (fun _ _ _ => RtoC 0))) Ls S)
       L spin s nside reality).
Proof.
  intros O f_wav f_scal L N lam J_min J spin s nside reality mr psi phi sz Ls HL HN HNL Hlam E EJ (Hf & Hw) Hsz HLs.
  pose proof (filt_J L N J_min J spin 0 lam psi phi HL ltac:(lia) Hlam (or_intror (or_introl E)) EJ) as HF.
  filt_facts HF. rewrite (sz_eq L N lam mr sz ltac:(lra) Hsz), (Ls_eq L J_min lam mr Ls ltac:(lra) HLs).
  assert (H0 : (0 < lam)%R) by lra. destruct Hpsi as (P0 & P1 & P2). set (az := azimuthal L (szf L N lam mr) psi).
  unfold synthesis. apply bind_ext. intros _ _.
  rewrite EJ. cbn [bind]. rewrite scal_bandlimit_ok by assumption. cbn [bind].
  pose proof (Ls_range L J_min lam mr HL H0).
  rewrite zeros2_ok by lia. cbn [bind]. apply bind_ext. intros S ES. rewrite E. cbn [bind].
  rewrite (loop_sum L (2 * L - 1) nd0
    (fun j T l q => wavelet_part L az j (Lj_of L j lam mr) (Nj_of L j N lam mr) (L0_of j lam mr) T l (q - (L - 1)))
    (fun j => fj <- lrd f_wav (j - J_min) ;;
              b_wfwd O fj (Lj_of L j lam mr) (Nj_of L j N lam mr) (L0_of j lam mr) s reality nside)); [|lia|].
  - rewrite bind_assoc. apply bind_ext. intros Ts _. cbn [bind].
    pose proof (sy_scal L N J_min J lam mr HL Hlam az phi Ts S Hphi (sh2 _ _ _ (Hf _ _ _ ES))) as X.
    destruct (mul1 _ _); cbn [bind] in *; [|discriminate].
    destruct (einsum_lm_l_lm _ _); cbn [bind] in *; [|discriminate].
    rewrite X. reflexivity.
  - intros j g Hj. rewrite LN_j_ok by assumption. cbn [bind]. rewrite bind_assoc. apply bind_ext. intros fj Efj.
    apply bind_ext. intros T ET.
    pose proof (sz_facts0 L N J lam mr HL HN Hlam EJ j ltac:(lia)) as (Z1 & Z2 & Z3).
    assert (HNb : 1 <= Nj_of L j N lam mr <= L + 2).
    { split; [lia|]. apply (Nj_bound L N J lam mr); auto; lia. }
    destruct (sh3 _ _ _ _ (Hw _ _ _ _ _ ET)) as (T0 & T1 & T2).
    apply (sy_step L (Lj_of L j lam mr) (Nj_of L j N lam mr) (L0_of j lam mr) j (szf L N lam mr) psi
        HL Z1 Z2 eq_refl ltac:(lia) P1 P2 (col_zero L N J_min J spin lam mr psi phi HL Hlam HF j ltac:(lia))); auto.
Qed.

(*@ C42_synthesis_too_many_orders *)
Lemma synthesis_many : forall O f_wav f_scal L N lam J_min J spin s nside reality psi phi sz Ls,
  1 <= L -> L + 3 <= N -> (1 < lam)%R ->
  filters_directional_vectorised L N J_min lam spin 0 = Ok (psi, phi) -> j_max L lam = Ok J ->
  fwd_shapes_b O spin s nside reality ->
  (forall j, LN_j L j N lam false = Ok (sz j)) -> scal_bandlimit L J_min lam false = Ok Ls ->
  synthesis O f_wav f_scal L N J_min lam spin 0 s nside reality false
  = (_ <- wavelet_shape_check f_wav f_scal L N J_min lam s nside false ;;
     _ <- b_fwd O f_scal Ls spin s nside reality ;;
     fj <- lrd f_wav 0 ;;
     let '(Lj, Nj, L0j) := sz J_min in
     _ <- b_wfwd O fj Lj Nj L0j s reality nside ;; Err ValueError).
Proof.
  intros O f_wav f_scal L N lam J_min J spin s nside reality psi phi sz Ls HL HN Hlam E EJ (Hf & Hw) Hsz HLs.
  pose proof (filt_J L N J_min J spin 0 lam psi phi HL ltac:(lia) Hlam (or_intror (or_introl E)) EJ) as HF.
  filt_facts HF. rewrite (sz_eq L N lam false sz ltac:(lra) Hsz), (Ls_eq L J_min lam false Ls ltac:(lra) HLs).
  assert (H0 : (0 < lam)%R) by lra. destruct Hpsi as (P0 & P1 & P2).
  unfold synthesis. apply bind_ext. intros _ _.
  rewrite EJ. cbn [bind]. rewrite scal_bandlimit_ok by assumption. cbn [bind].
  pose proof (Ls_range L J_min lam false HL H0).
  rewrite zeros2_ok by lia. cbn [bind]. apply bind_ext. intros S ES. rewrite E. cbn [bind].
  rewrite (zrange_cons J_min) by lia. cbn [for_]. rewrite LN_j_ok by assumption. cbn [bind].
  replace (J_min - J_min) with 0 by lia. unfold szf.
  rewrite !bind_assoc. apply bind_ext. intros fj _. rewrite bind_assoc. apply bind_ext. intros T ET.
  pose proof (sz_facts0 L N J lam false HL ltac:(lia) Hlam EJ J_min ltac:(lia)) as (Z1 & Z2 & Z3).
  assert (EN : Nj_of L J_min N lam false = N).
  { destruct (Nj_facts L J_min N lam false HL H0 ltac:(lia)) as (_ & H' & _). auto. }
  destruct (sh3 _ _ _ _ (Hw _ _ _ _ _ ET)) as (T0 & T1 & T2).
  pose proof (sy_step_err L (Lj_of L J_min lam false) (Nj_of L J_min N lam false) (L0_of J_min lam false) J_min psi
     HL Z1 Z2 ltac:(lia) P1 P2 T (fun x => Ok x) ltac:(lia)
     (L_two L N J_min J spin lam psi phi HL Hlam HF) T0 T1) as X.
  destruct (islice3 _ _ _ _) as [x1|]; cbn [bind] in X |- *; [|injection X as ->; reflexivity].
  destruct (einsum_ln_nlm_lm _ _) as [x2|]; cbn [bind] in X |- *; [discriminate|injection X as ->; reflexivity].
Qed.

(*% N = 7 = L + 2 and N = 8 = L + 3; with N = 7 the right coefficient at l = 2, m = n = 0 of the scale 1 is not zero *)
(*@E C42_example *)
Lemma ex_c42 : exists psi phi psi' phi' lpsi lphi sz Ls f, filters_directional_vectorised 5 7 1 2 0 0 = Ok (psi, phi) /\
  filters_directional_vectorised 5 8 1 2 0 0 = Ok (psi', phi') /\ filters_directional 5 7 1 2 0 0 = Ok (lpsi, lphi) /\ j_max 5 2 = Ok 3 /\
  MW <> Unknown /\ sampling_known MW None /\ fwd_shapes_b demo 0 MW None true /\
  (forall j, LN_j 5 j 7 2 false = Ok (sz j)) /\ scal_bandlimit 5 1 2 false = Ok Ls /\
  b_inv demo (demo_flm 5) 5 0 MW None true = Ok f /\ b_fwd demo f 5 0 MW None true = Ok (demo_flm 5) /\
  analysis demo f 5 8 1 2 0 0 MW None true false false = Err ValueError /\
  get3 (wcoefs 5 (azimuthal 5 sz lpsi) (demo_flm 5) sz 1) (7 - 1 + 0) 2 (5 - 1 + 0) = RtoC 0 /\
  get3 (wcoefs 5 lpsi (demo_flm 5) sz 1) (7 - 1 + 0) 2 (5 - 1 + 0) <> RtoC 0.
Proof.
  destruct (v5 7 1 ltac:(lia) ltac:(lia)) as (psi & phi & E & T & _). destruct (v5 8 1 ltac:(lia) ltac:(lia)) as (psi' & phi' & E' & T' & _).
  destruct (s5 7 1 false) as (sz & Ls & E1 & E2).
  destruct (proj1 (demo_exact_b 0 MW true ltac:(now left)) 5 ltac:(lia) (demo_flm 5) (demo_flm_ok 5 true)) as (f & Ef & _ & Eb).
  pose proof (filters_directional_ok 2 ltac:(lra) 5 7 1 3 0 0 ltac:(lia) ltac:(lia) J5 ltac:(lia)) as El.
  exists psi, phi, psi', phi'. do 2 eexists. exists sz, Ls, f. do 2 (split; [demo_step|]). split; [exact El|]. repeat (split; [demo_step|]).
  split; [|split].
  - rewrite (analysis_many demo f 5 8 2 1 3 0 MW None true false psi' phi') by demo_step. rewrite Eb. reflexivity.
  - assert (Es : sz 1 = (5, 7, 0)) by (specialize (E1 1); unfold LN_j in E1; cbn in E1; now apply Ok_inj in E1).
    apply (orders_lost 5 _ _ sz 1 5 7 0); [exact Es|lia].
  - assert (Es : sz 1 = (5, 7, 0)) by (specialize (E1 1); unfold LN_j in E1; cbn in E1; now apply Ok_inj in E1).
    unfold wcoefs. rewrite Es. unfold wavelet_coefs. rewrite get3_mk by lia. cbv zeta.
    change (Z.even (7 - 1 + 0 - (7 - 1) - (7 - 1)) && (0 <=? 2)) with true. cbv iota.
    replace (5 - 1 + (5 - 1 + 0 - (5 - 1))) with (5 - 1 + 0) by lia. replace (5 - 1 + (7 - 1 + 0 - (7 - 1))) with (5 - 1 + 0) by lia.
    apply Cmult_neq_0.
    + intros H. apply RtoC_inj in H. pose proof PI_RGT_0. assert (0 < 8 * PI ^ 2 / (2 * 2 + 1))%R; [|lra].
      apply Rdiv_lt_0_compat; [|lra]. apply Rmult_lt_0_compat; [lra|]. now apply pow_lt.
    + apply Cmult_neq_0; [apply demo_flm_ne; lia|]. intros H.
      apply (psid_1_2 7 0 ltac:(auto) ltac:(lia)). apply (f_equal Cconj) in H. now rewrite Cconj_conj, Cconj_0 in H.
Qed.

(*% ** C43: the arrays allocated by the base analysis do not matter *)

(*@ C43_independent_of_allocation *)
Lemma analysis_alloc : forall O f L N lam J_min J spin s nside reality mr scattering psi phi sz Ls,
  1 <= L -> 1 <= N <= L -> (1 < lam)%R ->
  filters_directional_vectorised L N J_min lam spin 0 = Ok (psi, phi) -> j_max L lam = Ok J ->
  s <> Unknown -> fwd_shapes_b O spin s nside reality ->
  (forall j, LN_j L j N lam mr = Ok (sz j)) -> scal_bandlimit L J_min lam mr = Ok Ls ->
  analysis O f L N J_min lam spin 0 s nside reality mr scattering
  = (flm <- b_fwd O f L spin s nside reality ;;
     w <- mapM (fun j => let '(Lj, Nj, L0j) := sz j in
                 b_winv O (wcoefs L psi flm sz j) Lj Nj L0j s reality nside) (zrange J_min (J + 1)) ;;
     sc <- b_inv O (scaling_coefs L phi flm Ls) Ls spin s nside reality ;;
     Ok (if scattering then map nd_abs w else w, sc)).
Proof.
  intros O f L N lam J_min J spin s nside reality mr scattering psi phi sz Ls HL HN Hlam E EJ Hs (Hf & _) Hsz HLs.
  pose proof (filt_J L N J_min J spin 0 lam psi phi HL ltac:(lia) Hlam (or_intror (or_introl E)) EJ) as HF.
  filt_facts HF. rewrite (sz_eq L N lam mr sz ltac:(lra) Hsz), (Ls_eq L J_min lam mr Ls ltac:(lra) HLs).
  rewrite (analysis_ok L N J_min J lam mr HL HN Hlam EJ ltac:(lia) O f spin s nside reality scattering psi phi);
    auto; try lia.
  - destruct s; cbn; auto; congruence.
  - intros flm Ef. apply sh2. eauto.
Qed.

(*@ C43_promised_shapes *)
Lemma analysis_shapes : forall O f L N lam J_min J spin s nside reality mr scattering w sc,
  1 <= L -> 1 <= N -> mr = true \/ N <= L + 2 -> (1 < lam)%R -> j_max L lam = Ok J -> 0 <= J_min < J ->
  s <> Unknown -> fwd_shapes_b O spin s nside reality -> inv_shapes_b O spin s nside reality ->
  analysis O f L N J_min lam spin 0 s nside reality mr scattering = Ok (w, sc) ->
  Z.of_nat (length w) = J - J_min + 1 /\ f_scal L J_min lam s nside mr = Ok (nshape sc) /\
  forall i a, nth_error w i = Some a -> f_wav_j L (J_min + Z.of_nat i) N lam s nside mr = Ok (nshape a).
Proof.
  intros O f L N lam J_min J spin s nside reality mr scattering w sc HL HN HNL Hlam EJ HJ Hs Hf (I1 & I2) H.
  destruct (valid_range L N lam J J_min spin 0 HL ltac:(lia) Hlam EJ HJ) as (_ & _ & _ & _ & (psi & phi & E & _) & _).
  rewrite (analysis_any O f L N lam J_min J spin s nside reality mr scattering psi phi (szf L N lam mr) (Ls_of L J_min lam mr))
    in H; auto; try (intros; first [apply LN_j_ok | apply scal_bandlimit_ok]; lra).
  apply bind_inv in H as (flm & _ & H). apply bind_inv in H as (w0 & Ew & H).
  apply bind_inv in H as (sc0 & Es & H). apply Ok_inj in H. apply pair_equal_spec in H as [<- <-].
  destruct (mapM_inv _ _ _ Ew) as [Hl Hn]. rewrite zrange_length in Hl.
  split; [destruct scattering; [rewrite map_length|]; lia|]. split; [rewrite f_scal_ok by lra; eauto|].
  intros i a Ha. rewrite f_wav_j_ok by lra.
  assert (Hi : (i < length w0)%nat).
  { replace (length w0) with (length (if scattering then map nd_abs w0 else w0))
      by (destruct scattering; [apply map_length|reflexivity]). apply nth_error_Some; congruence. }
  destruct (Hn i (J_min + Z.of_nat i)) as (y0 & Ey & En).
  { replace i with (Z.to_nat (Z.of_nat i)) at 1 by lia. rewrite nth_error_zrange by lia. reflexivity. }
  unfold szf in Ey. apply I2 in Ey. destruct scattering.
  + rewrite nth_error_map, En in Ha. injection Ha as <-. exact Ey.
  + rewrite En in Ha. injection Ha as <-. exact Ey.
Qed.

(*@E C43_example *)
Lemma ex_c43 : exists psi phi sz Ls f w sc, filters_directional_vectorised 5 3 1 2 0 0 = Ok (psi, phi) /\ j_max 5 2 = Ok 3 /\
  fwd_shapes_b demo 0 MW None true /\ inv_shapes_b demo 0 MW None true /\
  (forall j, LN_j 5 j 3 2 true = Ok (sz j)) /\ scal_bandlimit 5 1 2 true = Ok Ls /\
  analysis demo f 5 3 1 2 0 0 MW None true true false = Ok (w, sc).
Proof.
  destruct (v5 3 1 ltac:(lia) ltac:(lia)) as (psi & phi & E & T & _). destruct (s5 3 1 true) as (sz & Ls & E1 & E2).
  destruct ex_c07 as (f & w & sc & w' & sc' & _ & _ & _ & _ & Ea & _). exists psi, phi, sz, Ls, f, w, sc. demo_all.
Qed.
