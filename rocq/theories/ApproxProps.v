(** Statements and proofs for PropertiesApprox.v *)

From Coq Require Import ZArith Reals List Bool Lia Lra FunctionalExtensionality.
From Coquelicot Require Import Rcomplements Complex.
From Verif Require Import Py PyFacts ModelSamples SamplesFacts ModelFilters ModelTransforms Spec SpecTransforms SpecSteer
  FiltersFacts AxisymFacts DirectionFacts DirFilterFacts FiltersProps TransformsFacts BackendFacts LoopFacts
  ReconFacts RoundFacts Demo TransformsProps FrameProps QuadProps SteerProps SpecSignal SignalFacts SignalProps SpecApprox.
Import ListNotations.
Open Scope Z_scope.

(*T Transforms that invert each other only approximately *)
(*! From Coq Require Import ZArith Reals List Bool. *)
(*! From Coquelicot Require Import Complex. *)
(*! From Verif Require Import Py ModelSamples ModelFilters ModelTransforms Spec SpecTransforms SpecSteer SpecSignal SpecApprox Demo. *)

(** ** Energies *)

Lemma sum_le lo hi f g : (forall i, lo <= i < hi -> (f i <= g i)%R) -> (sumZ lo hi f <= sumZ lo hi g)%R.
Proof.
  intros H. assert (0 <= sumZ lo hi (fun i => g i + - f i))%R by (apply sumZ_pos; intros i Hi; specialize (H i Hi); lra).
  rewrite sumZ_plus, sumZ_opp in H0. lra.
Qed.
Lemma lin_le lo hi c d f g h : (forall i, lo <= i < hi -> (f i <= c * g i + d * h i)%R) ->
  (sumZ lo hi f <= c * sumZ lo hi g + d * sumZ lo hi h)%R.
Proof. intros H. rewrite <- !sumZ_mul, <- sumZ_plus. now apply sum_le. Qed.
Lemma Cmod2 x : (Cmod x ^ 2 = fst x ^ 2 + snd x ^ 2)%R.
Proof. unfold Cmod. rewrite pow2_sqrt; [reflexivity|]. apply Rplus_le_le_0_compat; apply pow2_ge_0. Qed.
Lemma young x y t : (0 < t)%R -> (fst (Cmult (Cconj x) y) <= / (2 * t) * Cmod x ^ 2 + t / 2 * Cmod y ^ 2)%R.
Proof.
  intros Ht. rewrite !Cmod2. destruct x as [a b], y as [c d]. cbn [fst snd Cmult Cconj].
  assert (H : forall u v, (u * v <= / (2 * t) * u ^ 2 + t / 2 * v ^ 2)%R).
  { intros u v. assert (0 <= / (2 * t) * (u - t * v) ^ 2)%R.
    { apply Rmult_le_pos; [left; apply Rinv_0_lt_compat; lra|apply pow2_ge_0]. }
    replace (/ (2 * t) * (u - t * v) ^ 2)%R with (/ (2 * t) * u ^ 2 - u * v + t / 2 * v ^ 2)%R in H by (field; lra). lra. }
  pose proof (H a c). pose proof (H b d). lra.
Qed.
Lemma inner2_young a b t : (0 < t)%R -> rows b = rows a -> cols b = cols a ->
  (fst (inner2 a b) <= / (2 * t) * energy2 a + t / 2 * energy2 b)%R.
Proof.
  intros Ht E1 E2. unfold inner2, energy2. rewrite E1, E2, fst_csumZ. apply lin_le. intros l Hl.
  rewrite fst_csumZ. apply lin_le. intros. now apply young.
Qed.
Lemma fst_scal c x : fst (Cmult (RtoC c) x) = (c * fst x)%R.
Proof. destruct x. simpl. ring. Qed.
Lemma inner3_young a b t : (0 < t)%R -> dim0 b = dim0 a -> dim1 b = dim1 a -> dim2 b = dim2 a ->
  (fst (inner3 a b) <= / (2 * t) * energy3 a + t / 2 * energy3 b)%R.
Proof.
  intros Ht E0 E1 E2. unfold inner3, energy3. rewrite E0, E1, E2, fst_csumZ. apply lin_le. intros l Hl.
  rewrite fst_scal. set (c := ((2 * IZR l + 1) / (8 * PI ^ 2))%R).
  assert (Hc : (0 <= c)%R).
  { destruct (two_l1 l ltac:(lia)) as [_ Hp]. pose proof PI_RGT_0. apply Rdiv_le_0_compat; nra. }
  rewrite !(Rmult_comm _ (c * _)), !Rmult_assoc, <- Rmult_plus_distr_l. apply Rmult_le_compat_l; [exact Hc|].
  rewrite !(Rmult_comm _ (/ (2 * t))), !(Rmult_comm _ (t / 2)).
  rewrite fst_csumZ. apply lin_le. intros n Hn. rewrite fst_csumZ. apply lin_le. intros. now apply young.
Qed.

(** the norm of a sum *)
Lemma energy2_add a b t : (0 < t)%R -> rows b = rows a -> cols b = cols a ->
  (energy2 a <= (1 + t) * energy2 b + (1 + / t) * energy2 (sub2 a b))%R.
Proof.
  intros Ht E1 E2. unfold energy2, sub2, lin2. cbn [rows cols get2]. rewrite E1, E2. apply lin_le. intros l Hl.
  apply lin_le. intros k Hk. rewrite !Cmod2. destruct (get2 a l k) as [x y], (get2 b l k) as [u v]. cbn [fst snd Cplus Cmult RtoC].
  assert (H : forall x u, (x ^ 2 <= (1 + t) * u ^ 2 + (1 + / t) * (x - u) ^ 2)%R).
  { intros p q. assert (0 <= / t * ((p - q) - t * q) ^ 2)%R.
    { apply Rmult_le_pos; [left; now apply Rinv_0_lt_compat|apply pow2_ge_0]. }
    replace (/ t * ((p - q) - t * q) ^ 2)%R with (/ t * (p - q) ^ 2 - 2 * (p - q) * q + t * q ^ 2)%R in H by (field; lra).
    replace (p ^ 2)%R with ((p - q) ^ 2 + 2 * (p - q) * q + q ^ 2)%R by ring. lra. }
  pose proof (H x u). pose proof (H y v).
  replace (1 * x - 0 * y + (-1 * u - 0 * v))%R with (x - u)%R by ring. replace (1 * y + 0 * x + (-1 * v + 0 * u))%R with (y - v)%R by ring.
  lra.
Qed.
Lemma sub2_chain a b c : rows b = rows a -> cols b = cols a -> rows c = rows a -> cols c = cols a ->
  energy2 (sub2 (sub2 a c) (sub2 b c)) = energy2 (sub2 a b).
Proof.
  intros. unfold energy2, sub2, lin2. cbn [rows cols get2]. apply sumZ_ext. intros l Hl. apply sumZ_ext. intros k Hk.
  do 2 f_equal. destruct (get2 a l k), (get2 b l k), (get2 c l k). apply injective_projections; simpl; ring.
Qed.

Lemma sub_wigner L N L0 a b : wigner L N L0 a -> wigner L N L0 b -> wigner L N L0 (sub3 a b).
Proof.
  intros (A0 & A1 & A2 & A3) (_ & _ & _ & B3). unfold sub3, lin3. repeat split; auto; cbn [get3] in *;
    (destruct (Ceq0_dec (get3 a (N - 1 + n) l (L - 1 + m))) as [Ea|Ea]; [|now apply (A3 n l m)]);
    (destruct (Ceq0_dec (get3 b (N - 1 + n) l (L - 1 + m))) as [Eb|Eb]; [|now apply (B3 n l m)]);
    exfalso; apply H; rewrite Ea, Eb; ring.
Qed.
Lemma sub_harmonic L spin a b : harmonic L spin a -> harmonic L spin b -> harmonic L spin (sub2 a b).
Proof.
  intros (A0 & A1 & A3) (_ & _ & B3). unfold sub2, lin2. repeat split; auto; cbn [get2] in *;
    (destruct (Ceq0_dec (get2 a l (L - 1 + m))) as [Ea|Ea]; [|now apply (A3 l m)]);
    (destruct (Ceq0_dec (get2 b l (L - 1 + m))) as [Eb|Eb]; [|now apply (B3 l m)]);
    exfalso; apply H; rewrite Ea, Eb; ring.
Qed.

Section Near.
Variables (L N J_min J spin spin0 : Z) (lam : R) (mr : bool).
Hypothesis HL : 1 <= L.
Hypothesis HN : 1 <= N <= L.
Hypothesis Hlam : (1 < lam)%R.
Variables (psi : arr3 C) (phi : arr1 R).
Hypothesis HI : is_filters L N J_min lam spin spin0 psi phi.
Hypothesis EJ : j_max L lam = Ok J.
Lemma HF : filt L N J_min J spin lam psi phi.
Proof. apply (filt_J L N J_min J spin spin0); auto; lia. Qed.
Notation Lj j := (Lj_of L j lam mr).
Notation Nj j := (Nj_of L j N lam mr).
Notation L0 j := (L0_of j lam mr).
Notation Ls := (Ls_of L J_min lam mr).
Notation wcf := (wc L N lam mr psi).
Notation scf flm := (scaling_coefs L phi flm Ls).
Notation sy W S := (synthesised L J_min J psi phi (szf L N lam mr) W Ls S).
Variable D : R.
Hypothesis HD : (0 < D)%R.
Hypothesis Htot : forall l, Z.abs spin <= l < L -> (dir_total L psi phi J_min J l <= D)%R.

(** analysis and synthesis have norm at most sqrt D *)
Lemma an_norm flm : harmonic L spin flm -> (total_energy J_min J (wcf flm) (scf flm) <= D * energy2 flm)%R.
Proof.
  intros Hh. pose proof Hh as (F1 & F2 & F3). pose proof (energy L N lam J_min J spin spin0 mr psi phi flm (szf L N lam mr) Ls HL HN Hlam HI EJ) as E.
  change (total_energy J_min J (wcf flm) (scf flm)) with
    (sumZ J_min (J + 1) (fun j => energy3 (wcoefs L psi flm (szf L N lam mr) j)) + energy2 (scf flm))%R.
  rewrite E; [|intros; apply LN_j_ok; lra|apply scal_bandlimit_ok; lra|exact Hh].
  unfold energy2. rewrite F1, F2, <- sumZ_mul. apply sum_le. intros l Hl.
  destruct (Z_lt_le_dec l (Z.abs spin)) as [Hs|Hs].
  - assert (E0 : sumZ 0 (2 * L - 1) (fun k => (Cmod (get2 flm l k) ^ 2)%R) = 0%R); [|rewrite E0; lra].
    apply sumZ_zero. intros k Hk.
    destruct (Ceq0_dec (get2 flm l (L - 1 + (k - (L - 1))))) as [E0|E0].
    + replace (L - 1 + (k - (L - 1))) with k in E0 by lia. rewrite E0, Cmod_0. ring.
    + apply F3 in E0. lia.
  - apply Rmult_le_compat_r; [|apply Htot; lia]. apply sumZ_pos. intros. apply pow2_ge_0.
Qed.
Lemma syn_norm W S : harmonic Ls spin S -> (forall j, J_min <= j <= J -> wigner (Lj j) (Nj j) (L0 j) (W j)) ->
  (energy2 (sy W S) <= D * total_energy J_min J W S)%R.
Proof.
  intros HS HW. set (X := sy W S).
  assert (HX : harmonic L spin X).
  { apply (sy_harm L N J_min J spin lam mr HL HN Hlam psi phi HF false W S). split; [split; [exact HS|intros E; discriminate E]|].
    intros j Hj. split; [now apply HW|intros E; discriminate E]. }
  pose proof (adjoint_sy L N J_min J spin lam mr HL HN Hlam psi phi HF X W S HX) as A. fold X in A.
  rewrite inner2_energy in A. apply (f_equal fst) in A. cbn [fst RtoC] in A.
  pose proof (an_norm X HX) as B. assert (Hi : is_harmonic L spin false X) by (split; [exact HX|intros E; discriminate E]).
  pose proof (deco_an L N J_min J spin lam mr HL HN Hlam psi phi HF false X Hi) as ((C1 & _) & C2).
  assert (Y : (fst (inner J_min J (wcf X) (scf X) W S)
     <= / (2 * D) * total_energy J_min J (wcf X) (scf X) + D / 2 * total_energy J_min J W S)%R).
  { unfold inner, total_energy. cbn [fst Cplus]. rewrite fst_csumZ.
    pose proof (inner2_young (scf X) S D HD) as Y2. destruct HS as (S1 & S2 & _). destruct C1 as (T1 & T2 & _).
    specialize (Y2 ltac:(congruence) ltac:(congruence)).
    pose proof (lin_le J_min (J + 1) (/ (2 * D)) (D / 2) (fun j => fst (inner3 (wcf X j) (W j)))
      (fun j => energy3 (wcf X j)) (fun j => energy3 (W j))) as Y3.
    lapply Y3; [lra|]. intros j Hj. destruct (HW j ltac:(lia)) as (W0 & W1 & W2 & _). destruct (C2 j ltac:(lia)) as ((V0 & V1 & V2 & _) & _).
    apply inner3_young; congruence. }
  rewrite A in Y.
  assert (/ (2 * D) * total_energy J_min J (wcf X) (scf X) <= / 2 * energy2 X)%R.
  { replace (/ 2 * energy2 X)%R with (/ (2 * D) * (D * energy2 X))%R by (field; lra). apply Rmult_le_compat_l; [|exact B].
    left. apply Rinv_0_lt_compat. lra. }
  lra.
Qed.

Variables (eps : R) (flm : arr2 C) (W : Z -> arr3 C) (S : arr2 C).
Hypothesis Hh : harmonic L spin flm.
Hypothesis HS : harmonic Ls spin S.
Hypothesis HW : forall j, J_min <= j <= J -> wigner (Lj j) (Nj j) (L0 j) (W j).
Hypothesis ES : (energy2 (sub2 S (scf flm)) <= eps ^ 2 * energy2 (scf flm))%R.
Hypothesis EW : forall j, J_min <= j <= J -> (energy3 (sub3 (W j) (wcf flm j)) <= eps ^ 2 * energy3 (wcf flm j))%R.
Lemma near_syn : (energy2 (sub2 (sy W S) (scale_l (dir_total L psi phi J_min J) flm)) <= (eps * D) ^ 2 * energy2 flm)%R.
Proof.
  assert (Hi : is_harmonic L spin false flm) by (split; [exact Hh|intros E; discriminate E]).
  pose proof (deco_an L N J_min J spin lam mr HL HN Hlam psi phi HF false flm Hi) as ((C1 & _) & C2).
  rewrite <- (recon_f L N J_min J spin lam mr psi phi HL HN Hlam HF flm Hh), <- sy_syn.
  unfold sub2. rewrite <- syn_lin. fold (sub2 S (scf flm)).
  apply Rle_trans with (D * total_energy J_min J (fun j => sub3 (W j) (wcf flm j)) (sub2 S (scf flm)))%R.
  { apply syn_norm; [now apply sub_harmonic|]. intros j Hj. apply sub_wigner; [now apply HW|]. now apply C2. }
  apply Rle_trans with (D * (eps ^ 2 * total_energy J_min J (wcf flm) (scf flm)))%R.
  { apply Rmult_le_compat_l; [lra|]. unfold total_energy. rewrite Rmult_plus_distr_l, <- sumZ_mul.
    apply Rplus_le_compat; [|exact ES]. apply sum_le. intros j Hj. apply EW. lia. }
  replace ((eps * D) ^ 2 * energy2 flm)%R with (D * (eps ^ 2 * (D * energy2 flm)))%R by ring.
  apply Rmult_le_compat_l; [lra|]. apply Rmult_le_compat_l; [apply pow2_ge_0|]. now apply an_norm.
Qed.
End Near.

Lemma near_known {A} eps en sb (P : A -> Prop) L s nside inv fwd a : 1 <= L -> P a ->
  nearly_inverts eps en sb P (s2_f_shape L s nside) inv fwd -> sampling_known s nside.
Proof.
  intros HL Ha H. destruct (H a Ha) as (f & b & _ & E & _). destruct s; try exact I; [|discriminate].
  cbn. intros ->. discriminate.
Qed.

(** the maps of an analysis, measured again *)
Lemma near_measured eps b O L N lam J_min J spin s nside reality mr psi phi flm w sc : 1 <= L -> 1 <= N <= L -> (1 < lam)%R ->
  filt L N J_min J spin lam psi phi ->
  nearly_exact eps (lib_of b O) L N spin s nside reality -> is_harmonic L spin reality flm ->
  maps_of L N J_min J spin lam mr psi phi b O s nside reality flm w sc ->
  exists W S, measured (lib_of b O) L N J_min J lam spin s nside reality mr w sc W S /\
    (energy2 (sub2 S (scaling_coefs L phi flm (Ls_of L J_min lam mr))) <= eps ^ 2 * energy2 (scaling_coefs L phi flm (Ls_of L J_min lam mr)))%R /\
    forall j, J_min <= j <= J -> (energy3 (sub3 (W j) (wc L N lam mr psi flm j)) <= eps ^ 2 * energy3 (wc L N lam mr psi flm j))%R.
Proof.
  intros HL HN Hlam HF (X1 & X2) Hh (Ew & Es). pose proof (f_range _ _ _ _ _ _ _ _ HF) as HJ.
  destruct (deco_an L N J_min J spin lam mr HL HN Hlam psi phi HF reality flm Hh) as (D1 & D2).
  pose proof (Ls_range L J_min lam mr HL ltac:(lra)) as HLs.
  destruct (X1 _ HLs _ D1) as (y & S & E1 & E2 & E3 & E4 & E5). assert (y = sc) as -> by congruence.
  destruct (mapM_inv _ _ _ Ew) as [Hlen Hn]. rewrite zrange_length in Hlen.
  set (rd := fun j => match nth_error w (Z.to_nat (j - J_min)) with
     | Some y => match b_wfwd (lib_of b O) y (Lj_of L j lam mr) (Nj_of L j N lam mr) (L0_of j lam mr) s reality nside with
                 | Ok a => a | Err _ => mk3 0 0 0 (fun _ _ _ => RtoC 0) end
     | None => mk3 0 0 0 (fun _ _ _ => RtoC 0) end).
  assert (K : forall j, J_min <= j <= J -> exists y, nth_error w (Z.to_nat (j - J_min)) = Some y /\
     so3_f_shape (Lj_of L j lam mr) (Nj_of L j N lam mr) s nside = Ok (nshape y) /\
     b_wfwd (lib_of b O) y (Lj_of L j lam mr) (Nj_of L j N lam mr) (L0_of j lam mr) s reality nside = Ok (rd j) /\
     is_wigner (Lj_of L j lam mr) (Nj_of L j N lam mr) (L0_of j lam mr) reality (rd j) /\
     (energy3 (sub3 (rd j) (wc L N lam mr psi flm j)) <= eps ^ 2 * energy3 (wc L N lam mr psi flm j))%R).
  { intros j Hj. destruct (sizes L N J_min J spin lam mr psi phi HL HN Hlam HF j ltac:(lia)) as (Z1 & Z2 & Z3 & Z4).
    destruct (Hn (Z.to_nat (j - J_min)) j) as (y & Ey & En).
    { rewrite nth_error_zrange by lia. f_equal. lia. }
    destruct (X2 (Lj_of L j lam mr) (Nj_of L j N lam mr) (L0_of j lam mr) ltac:(lia) ltac:(lia) ltac:(lia) ltac:(lia) _ (D2 j Hj))
      as (y' & a & F1 & F2 & F3 & F4 & F5). assert (y' = y) as -> by congruence.
    exists y. unfold rd. rewrite En, F3. auto. }
  exists rd, S. split; [|split; [exact E5|]].
  - split; [lia|]. split.
    + exists (Ls_of L J_min lam mr). rewrite scal_bandlimit_ok by lra. auto.
    + intros j Hj. destruct (K j Hj) as (y & F1 & F2 & F3 & F4 & _). exists (Lj_of L j lam mr), (Nj_of L j N lam mr), (L0_of j lam mr), y.
      rewrite LN_j_ok by lra. auto.
  - intros j Hj. destruct (K j Hj) as (y & _ & _ & _ & _ & F). exact F.
Qed.

(*% ** C85: the round trip amplifies no error of the transforms *)
(*% with every implementation; f is any map, flm the coefficients that the forward transform reads from it *)

(*@ C85_round_trip *)
Lemma near_trip : forall eps D b O f flm L N lam J_min J spin spin0 s nside reality mr psi phi w sc g,
  1 <= L -> 1 <= N <= L -> (1 < lam)%R -> j_max L lam = Ok J -> (0 < D)%R ->
  nearly_exact_lib eps b O L N J_min lam spin s nside reality ->
  (forall l, Z.abs spin <= l < L -> (dir_total L psi phi J_min J l <= D)%R) ->
  b_fwd (lib_of b O) f L spin s nside reality = Ok flm -> is_harmonic L spin reality flm ->
  analysed b O f L N J_min lam spin spin0 s nside reality mr psi phi w sc ->
  resynthesised b O w sc L N J_min lam spin spin0 s nside reality mr psi phi g ->
  exists glm, is_harmonic L spin reality glm /\ b_inv (lib_of b O) glm L spin s nside reality = Ok g /\
    (energy2 (sub2 glm (scale_l (dir_total L psi phi J_min J) flm)) <= (eps * D) ^ 2 * energy2 flm)%R.
Proof.
  intros eps D b O f flm L N lam J_min J spin spin0 s nside reality mr psi phi w sc g HL HN Hlam EJ HD (HX & H1) Ht Ef Hh A R.
  pose proof (an_filters _ _ _ _ _ _ _ _ _ _ _ _ _ _ _ _ _ A) as HI.
  pose proof (filt_J L N J_min J spin spin0 lam psi phi HL ltac:(lia) Hlam HI EJ) as HF.
  pose proof (near_known _ _ _ _ _ _ _ _ _ _ HL Hh (proj1 HX L ltac:(lia))) as Hs.
  pose proof (analysed_maps0 L N J_min J spin lam mr HL HN Hlam psi phi HF b O s nside reality spin0 f flm w sc Hs H1 Hh Ef A) as M.
  destruct (near_measured eps b O L N lam J_min J spin s nside reality mr psi phi flm w sc HL HN Hlam HF HX Hh M) as (W & S & MM & ES & EW).
  pose proof (deco_of L N J_min J spin lam mr Hlam (lib_of b O) s nside reality w sc W S MM) as DD.
  exists (synthesised L J_min J psi phi (szf L N lam mr) W (Ls_of L J_min lam mr) S). split; [|split].
  - now apply (sy_is L N J_min J spin lam mr HL HN Hlam psi phi HF).
  - eapply (resyn_inv0 L N J_min J spin lam mr HL HN Hlam psi phi HF); eauto.
  - destruct DD as ((D1 & _) & D2). apply (near_syn L N J_min J spin spin0 lam mr HL HN Hlam psi phi HI EJ D HD Ht eps flm W S); auto.
    + apply Hh.
    + intros j Hj. apply (D2 j Hj).
Qed.

(*% f is the inverse transform of flm: the errors of the three steps add up *)
(*@ C85_field *)
Lemma near_field : forall eps b O f flm L N lam J_min J spin spin0 s nside reality mr psi phi w sc g,
  1 <= L -> 1 <= N <= L -> (1 < lam)%R -> j_max L lam = Ok J -> (0 < eps)%R ->
  nearly_exact_lib eps b O L N J_min lam spin s nside reality ->
  (forall l, Z.abs spin <= l < L -> dir_total L psi phi J_min J l = 1%R) ->
  is_harmonic L spin reality flm -> b_inv (lib_of b O) flm L spin s nside reality = Ok f ->
  analysed b O f L N J_min lam spin spin0 s nside reality mr psi phi w sc ->
  resynthesised b O w sc L N J_min lam spin spin0 s nside reality mr psi phi g ->
  exists glm, is_harmonic L spin reality glm /\ b_inv (lib_of b O) glm L spin s nside reality = Ok g /\
    (energy2 (sub2 glm flm) <= (eps * (2 + eps)) ^ 2 * energy2 flm)%R.
Proof.
  intros eps b O f flm L N lam J_min J spin spin0 s nside reality mr psi phi w sc g HL HN Hlam EJ He HX Ht Hh Ef A R.
  pose proof HX as ((X1 & _) & _). destruct (X1 L ltac:(lia) flm Hh) as (f' & f1 & E1 & _ & E2 & H1 & B1).
  assert (f' = f) as -> by congruence.
  destruct (near_trip eps 1 b O f f1 L N lam J_min J spin spin0 s nside reality mr psi phi w sc g) as (glm & G1 & G2 & G3); auto; try lra.
  { intros l Hl. rewrite Ht by exact Hl. lra. }
  exists glm. split; [exact G1|]. split; [exact G2|].
  rewrite (scale_1 L spin) in G3 by (auto; apply H1). rewrite Rmult_1_r in G3.
  pose proof G1 as ((GR & GC & _) & _). pose proof H1 as ((FR & FC & _) & _). pose proof Hh as ((HR & HC & _) & _).
  pose proof (energy2_add f1 flm eps He ltac:(congruence) ltac:(congruence)) as P1.
  pose proof (energy2_pos flm) as P0. set (E0 := energy2 flm) in *.
  assert (Q1 : (energy2 f1 <= (1 + eps) ^ 2 * E0)%R).
  { apply Rle_trans with (1 := P1). apply Rle_trans with ((1 + eps) * E0 + (1 + / eps) * (eps ^ 2 * E0))%R.
    - apply Rplus_le_compat_l, Rmult_le_compat_l; [|exact B1]. pose proof (Rinv_0_lt_compat _ He). lra.
    - right. field. lra. }
  pose proof (energy2_add (sub2 glm flm) (sub2 f1 flm) (1 + eps) ltac:(lra)) as P2.
  cbn [sub2 lin2 rows cols] in P2. fold (sub2 glm flm) (sub2 f1 flm) in P2. specialize (P2 ltac:(congruence) ltac:(congruence)).
  rewrite sub2_chain in P2 by congruence.
  assert (Pi : (0 < / (1 + eps))%R) by (apply Rinv_0_lt_compat; lra).
  apply Rle_trans with (1 := P2).
  apply Rle_trans with ((1 + (1 + eps)) * (eps ^ 2 * E0) + (1 + / (1 + eps)) * (eps ^ 2 * ((1 + eps) ^ 2 * E0)))%R.
  - apply Rplus_le_compat; apply Rmult_le_compat_l; try lra.
    apply Rle_trans with (1 := G3). apply Rmult_le_compat_l; [apply pow2_ge_0|exact Q1].
  - right. field. lra.
Qed.

(*% the base transforms run on such a field, in every sampling including HEALPix *)
(*@ C85_base *)
Lemma near_base : forall eps O flm L N lam J_min J spin s nside reality mr psi phi,
  1 <= L -> 1 <= N <= L -> (1 < lam)%R -> j_max L lam = Ok J -> (0 < eps)%R ->
  filters_directional_vectorised L N J_min lam spin 0 = Ok (psi, phi) ->
  (forall l, Z.abs spin <= l < L -> dir_total L psi phi J_min J l = 1%R) ->
  nearly_exact eps O L N spin s nside reality -> is_harmonic L spin reality flm ->
  exists f w sc g glm, b_inv O flm L spin s nside reality = Ok f /\
    analysis O f L N J_min lam spin 0 s nside reality mr false = Ok (w, sc) /\
    synthesis O w sc L N J_min lam spin 0 s nside reality mr = Ok g /\
    is_harmonic L spin reality glm /\ b_inv O glm L spin s nside reality = Ok g /\
    (energy2 (sub2 glm flm) <= (eps * (2 + eps)) ^ 2 * energy2 flm)%R.
Proof.
  intros eps O flm L N lam J_min J spin s nside reality mr psi phi HL HN Hlam EJ He E Ht HX Hh.
  pose proof (or_intror (or_introl E) : is_filters L N J_min lam spin 0 psi phi) as HI.
  pose proof (filt_J L N J_min J spin 0 lam psi phi HL ltac:(lia) Hlam HI EJ) as HF'. filt_facts HF'.
  pose proof (near_known _ _ _ _ _ _ _ _ _ _ HL Hh (proj1 HX L ltac:(lia))) as Hs.
  assert (HX' : nearly_exact_lib eps Base O L N J_min lam spin s nside reality) by (split; [exact HX|now intros H]).
  destruct (proj1 HX L ltac:(lia) flm Hh) as (f & f1 & E1 & _ & E2 & H1 & _).
  destruct (deco_an L N J_min J spin lam mr HL HN Hlam psi phi HF' reality f1 H1) as (D1 & D2).
  pose proof (Ls_range L J_min lam mr HL ltac:(lra)) as HLs.
  destruct (proj1 HX _ HLs _ D1) as (sc & ? & Es & _).
  destruct (mapM_ex (fun _ _ => True)
     (fun j => b_winv O (wc L N lam mr psi f1 j) (Lj_of L j lam mr) (Nj_of L j N lam mr) (L0_of j lam mr) s reality nside)
     J_min (J + 1) ltac:(lia)) as (w & Ew & _).
  { intros j Hj. destruct (sizes L N J_min J spin lam mr psi phi HL HN Hlam HF' j ltac:(lia)) as (Z1 & Z2 & Z3 & Z4).
    destruct (proj2 HX (Lj_of L j lam mr) (Nj_of L j N lam mr) (L0_of j lam mr) ltac:(lia) ltac:(lia) ltac:(lia) ltac:(lia) _ (D2 j ltac:(lia)))
      as (y & ? & Ey & _). exists y. auto. }
  assert (A : analysis O f L N J_min lam spin 0 s nside reality mr false = Ok (w, sc)).
  { rewrite (analysis_ok L N J_min J lam mr HL HN Hlam EJ ltac:(lia) O f spin s nside reality false psi phi); auto; try lia.
    - rewrite E2. cbn [bind]. rewrite Ew. cbn [bind]. rewrite Es. reflexivity.
    - eapply known_some; eauto.
    - intros a Ea. assert (a = f1) as -> by congruence. eapply harm_sh, H1. }
  destruct (near_measured eps Base O L N lam J_min J spin s nside reality mr psi phi f1 w sc HL HN Hlam HF' HX H1)
    as (W & S & MM & _). { split; assumption. }
  pose proof (base_syn0 L N J_min J spin lam mr HL HN Hlam psi phi HF' Base O s nside reality w sc W S Hs MM E) as ES.
  change (lib_of Base O) with O in ES.
  pose proof (deco_of L N J_min J spin lam mr Hlam O s nside reality w sc W S MM) as DD.
  pose proof (sy_is L N J_min J spin lam mr HL HN Hlam psi phi HF' reality W S DD) as Hy.
  destruct (proj1 HX L ltac:(lia) _ Hy) as (g & ? & Eg & _).
  destruct (near_field eps Base O f flm L N lam J_min J spin 0 s nside reality mr psi phi w sc g) as (glm & G1 & G2 & G3); auto.
  { left. split; [exact E|exact A]. }
  { left. split; [exact E|]. congruence. }
  exists f, w, sc, g, glm. split; [exact E1|]. split; [exact A|]. split; [congruence|]. auto.
Qed.

(*% every other implementation runs on it too, in the samplings that it supports *)
(*@ C85_every *)
Lemma near_every : forall eps b O flm L N lam J_min J spin s nside reality mr psi phi,
  1 <= L -> 1 <= N <= L -> (1 < lam)%R -> j_max L lam = Ok J -> (0 < eps)%R ->
  filters_directional_vectorised L N J_min lam spin 0 = Ok (psi, phi) ->
  (forall l, Z.abs spin <= l < L -> dir_total L psi phi J_min J l = 1%R) ->
  nearly_exact_lib eps b O L N J_min lam spin s nside reality -> usable b O spin s nside reality mr ->
  is_harmonic L spin reality flm ->
  exists f w sc g glm, b_inv (lib_of b O) flm L spin s nside reality = Ok f /\
    analysed b O f L N J_min lam spin 0 s nside reality mr psi phi w sc /\
    resynthesised b O w sc L N J_min lam spin 0 s nside reality mr psi phi g /\
    is_harmonic L spin reality glm /\ b_inv (lib_of b O) glm L spin s nside reality = Ok g /\
    (energy2 (sub2 glm flm) <= (eps * (2 + eps)) ^ 2 * energy2 flm)%R.
Proof.
  intros eps b O flm L N lam J_min J spin s nside reality mr psi phi HL HN Hlam EJ He E Ht HX' U Hh.
  pose proof HX' as (HX & HO).
  pose proof (or_intror (or_introl E) : is_filters L N J_min lam spin 0 psi phi) as HI.
  pose proof (filt_J L N J_min J spin 0 lam psi phi HL ltac:(lia) Hlam HI EJ) as HF'. filt_facts HF'.
  pose proof (near_known _ _ _ _ _ _ _ _ _ _ HL Hh (proj1 HX L ltac:(lia))) as Hs.
  destruct (proj1 HX L ltac:(lia) flm Hh) as (f & f1 & E1 & _ & E2 & H1 & _).
  destruct (deco_an L N J_min J spin lam mr HL HN Hlam psi phi HF' reality f1 H1) as (D1 & D2).
  pose proof (Ls_range L J_min lam mr HL ltac:(lra)) as HLs.
  destruct (proj1 HX _ HLs _ D1) as (sc & ? & Es & _).
  destruct (mapM_ex (fun _ _ => True)
     (fun j => b_winv (lib_of b O) (wc L N lam mr psi f1 j) (Lj_of L j lam mr) (Nj_of L j N lam mr) (L0_of j lam mr) s reality nside)
     J_min (J + 1) ltac:(lia)) as (w & Ew & _).
  { intros j Hj. destruct (sizes L N J_min J spin lam mr psi phi HL HN Hlam HF' j ltac:(lia)) as (Z1 & Z2 & Z3 & Z4).
    destruct (proj2 HX (Lj_of L j lam mr) (Nj_of L j N lam mr) (L0_of j lam mr) ltac:(lia) ltac:(lia) ltac:(lia) ltac:(lia) _ (D2 j ltac:(lia)))
      as (y & ? & Ey & _). exists y. auto. }
  assert (A : analysed b O f L N J_min lam spin 0 s nside reality mr psi phi w sc).
  { apply (field_an0 L N J_min J spin lam mr HL HN Hlam psi phi HF' b O s nside reality f f1 w sc); auto. }
  destruct (near_measured eps b O L N lam J_min J spin s nside reality mr psi phi f1 w sc HL HN Hlam HF' HX H1)
    as (W & S & MM & _). { split; assumption. }
  pose proof (deco_of L N J_min J spin lam mr Hlam (lib_of b O) s nside reality w sc W S MM) as DD.
  pose proof (sy_is L N J_min J spin lam mr HL HN Hlam psi phi HF' reality W S DD) as Hy.
  destruct (proj1 HX L ltac:(lia) _ Hy) as (g & ? & Eg & _).
  assert (R : resynthesised b O w sc L N J_min lam spin 0 s nside reality mr psi phi g).
  { eapply (measured_syn0 L N J_min J spin lam mr HL HN Hlam psi phi HF' b O s nside reality); eauto. }
  destruct (near_field eps b O f flm L N lam J_min J spin 0 s nside reality mr psi phi w sc g) as (glm & G1 & G2 & G3); auto.
  exists f, w, sc, g, glm. auto 8.
Qed.

(*% transforms with a sampling theorem are the case without an error *)
Lemma energy2_self a : energy2 (sub2 a a) = 0%R.
Proof.
  unfold energy2, sub2, lin2. cbn [rows cols get2]. apply sumZ_zero. intros l Hl. apply sumZ_zero. intros k Hk.
  rewrite Cmod2. destruct (get2 a l k). cbn [fst snd Cplus Cmult RtoC]. ring.
Qed.
Lemma energy3_self a : energy3 (sub3 a a) = 0%R.
Proof.
  unfold energy3, sub3, lin3. cbn [dim0 dim1 dim2 get3]. apply sumZ_zero. intros l Hl.
  match goal with |- (?c * ?s)%R = _ => assert (s = 0%R) as ->; [|ring] end.
  apply sumZ_zero. intros n Hn. apply sumZ_zero. intros k Hk.
  rewrite Cmod2. destruct (get3 a n l k). cbn [fst snd Cplus Cmult RtoC]. ring.
Qed.
(*@ C85_exact *)
Lemma exact_near : forall eps b O L N J_min lam spin s nside reality,
  exact_lib b O L J_min lam spin s nside reality -> nearly_exact_lib eps b O L N J_min lam spin s nside reality.
Proof.
  intros eps b O L N J_min lam spin s nside reality ((X1 & X2) & H1). split; [|exact H1]. split.
  - intros L' HL' a Ha. destruct (X1 L' ltac:(lia) a Ha) as (f & E1 & E2 & E3). exists f, a. do 4 (split; auto).
    rewrite energy2_self. apply Rmult_le_pos; [apply pow2_ge_0|apply energy2_pos].
  - intros L' N' L0 HL' HN' HN2 HL0 a Ha. destruct (X2 L' N' L0 ltac:(lia) ltac:(lia) ltac:(lia) a Ha) as (f & E1 & E2 & E3). exists f, a.
    do 4 (split; auto). rewrite energy3_self. apply Rmult_le_pos; [apply pow2_ge_0|apply energy3_pos].
Qed.

(** a library on 48 HEALPix pixels that keeps the coefficients one after the other and reads them back a tenth too large *)
Definition hp_inv (a : arr2 C) (L spin : Z) (s : sampling) (nside : option Z) (reality : bool) : res nd :=
  sh <- s2_f_shape L s nside ;;
  Ok (Nd sh (fun ix => match ix with
                       | [p] => if inb (L * (2 * L - 1)) p then get2 a (p / (2 * L - 1)) (p mod (2 * L - 1)) else RtoC 0
                       | _ => RtoC 0
                       end)).
Definition hp_fwd (f : nd) (L spin : Z) (s : sampling) (nside : option Z) (reality : bool) : res (arr2 C) :=
  Ok (mk2 L (2 * L - 1) (fun l q => Cmult (RtoC (11 / 10)) (ndat f [l * (2 * L - 1) + q]))).
Definition hp_winv (a : arr3 C) (L N L0 : Z) (s : sampling) (reality : bool) (nside : option Z) : res nd :=
  sh <- so3_f_shape L N s nside ;;
  Ok (Nd sh (fun ix => match ix with
                       | [n; p] => if inb (L * (2 * L - 1)) p then get3 a n (p / (2 * L - 1)) (p mod (2 * L - 1)) else RtoC 0
                       | _ => RtoC 0
                       end)).
Definition hp_wfwd (f : nd) (L N L0 : Z) (s : sampling) (reality : bool) (nside : option Z) : res (arr3 C) :=
  Ok (mk3 (2 * N - 1) L (2 * L - 1) (fun n l q => Cmult (RtoC (11 / 10)) (ndat f [n; l * (2 * L - 1) + q]))).
Definition hp : s2fft :=
  let pf (f : nd) (k : skern) L s r spin ns := hp_fwd f L spin s ns r in
  let pi (a : arr2 C) (k : skern) L s r spin ns := hp_inv a L spin s ns r in
  let pwf (f : nd) (k : wkern) L N s r ns := hp_wfwd f L N 0 s r ns in
  let pwi (a : arr3 C) (k : wkern) L N s r ns := hp_winv a L N 0 s r ns in
  S2fft hp_fwd hp_inv hp_wfwd hp_winv
    (fun f L spin ns s r => hp_fwd f L spin s ns r) (fun a L spin ns s r => hp_inv a L spin s ns r)
    (fun f L N ns s r k L0 => hp_wfwd f L N L0 s r ns) (fun a L N ns s r k L0 => hp_winv a L N L0 s r ns)
    pf pi pwf pwi pf pi pwf pwi (c_fwd demo) (c_inv demo) (c_wfwd demo) (c_winv demo).
Lemma unflat L l q : 1 <= L -> 0 <= l < L -> 0 <= q < 2 * L - 1 ->
  inb (L * (2 * L - 1)) (l * (2 * L - 1) + q) = true /\ (l * (2 * L - 1) + q) / (2 * L - 1) = l /\
  (l * (2 * L - 1) + q) mod (2 * L - 1) = q.
Proof.
  intros HL Hl Hq. split; [apply inb_true; nia|].
  rewrite Z.add_comm, Z.div_add, Z.mod_add, Z.div_small, Z.mod_small by lia. lia.
Qed.
Definition up2 (a : arr2 C) : arr2 C := mk2 (rows a) (cols a) (fun l q => Cmult (RtoC (11 / 10)) (get2 a l q)).
Definition up3 (a : arr3 C) : arr3 C := mk3 (dim0 a) (dim1 a) (dim2 a) (fun n l q => Cmult (RtoC (11 / 10)) (get3 a n l q)).
Lemma up2_energy a : (energy2 (sub2 (up2 a) a) <= (1 / 10) ^ 2 * energy2 a)%R.
Proof.
  right. unfold energy2. cbn [up2 sub2 lin2 mk2 rows cols]. rewrite <- sumZ_mul. apply sumZ_ext. intros l Hl. rewrite <- sumZ_mul.
  apply sumZ_ext. intros k Hk. unfold up2, sub2, lin2. cbn [get2]. rewrite get2_mk by lia. rewrite !Cmod2. destruct (get2 a l k).
  cbn [fst snd Cplus Cmult RtoC]. field.
Qed.
Lemma up3_energy a : (energy3 (sub3 (up3 a) a) <= (1 / 10) ^ 2 * energy3 a)%R.
Proof.
  right. unfold energy3. cbn [up3 sub3 lin3 mk3 dim0 dim1 dim2]. rewrite <- sumZ_mul. apply sumZ_ext. intros l Hl.
  match goal with |- (?c * ?s = ?d * (?c * ?t))%R => assert (s = (d * t)%R) as ->; [|ring] end.
  rewrite <- sumZ_mul. apply sumZ_ext. intros n Hn. rewrite <- sumZ_mul.
  apply sumZ_ext. intros k Hk. unfold up3, sub3, lin3. cbn [get3]. rewrite get3_mk by lia. rewrite !Cmod2. destruct (get3 a n l k).
  cbn [fst snd Cplus Cmult RtoC]. field.
Qed.
Lemma up2_harm L spin a : harmonic L spin a -> harmonic L spin (up2 a).
Proof.
  intros (A0 & A1 & A3). unfold up2. repeat split; auto; rewrite A0, A1 in H; cbn [get2 mk2] in H;
    (destruct (_ && _) in H; [|now contradict H]);
    (destruct (Ceq0_dec (get2 a l (L - 1 + m))) as [Ea|Ea]; [exfalso; apply H; rewrite Ea; ring|now apply (A3 l m)]).
Qed.
Lemma up3_wig L N L0 a : wigner L N L0 a -> wigner L N L0 (up3 a).
Proof.
  intros (A0 & A1 & A2 & A3). unfold up3. repeat split; auto; rewrite A0, A1, A2 in H; cbn [get3 mk3] in H;
    (destruct (_ && _) in H; [|now contradict H]);
    (destruct (Ceq0_dec (get3 a (N - 1 + n) l (L - 1 + m))) as [Ea|Ea]; [exfalso; apply H; rewrite Ea; ring|now apply (A3 n l m)]).
Qed.
Lemma hp_round L spin k a : 1 <= L -> harmonic L spin a -> exists f,
  hp_inv a L spin HEALPIX (Some k) false = Ok f /\ s2_f_shape L HEALPIX (Some k) = Ok (nshape f) /\
  hp_fwd f L spin HEALPIX (Some k) false = Ok (up2 a).
Proof.
  intros HL (A0 & A1 & _). eexists. split; [reflexivity|]. split; [reflexivity|]. unfold hp_fwd, up2. rewrite A0, A1. f_equal.
  apply mk2_ext. intros l q Hl Hq. cbn [ndat]. destruct (unflat L l q HL Hl Hq) as (-> & -> & ->). reflexivity.
Qed.
Lemma hp_wround L N L0 k a : 1 <= L -> wigner L N L0 a -> exists f,
  hp_winv a L N L0 HEALPIX false (Some k) = Ok f /\ so3_f_shape L N HEALPIX (Some k) = Ok (nshape f) /\
  hp_wfwd f L N L0 HEALPIX false (Some k) = Ok (up3 a).
Proof.
  intros HL (A0 & A1 & A2 & _). eexists. split; [reflexivity|]. split; [reflexivity|]. unfold hp_wfwd, up3. rewrite A0, A1, A2. f_equal.
  apply mk3_ext. intros n l q Hn Hl Hq. cbn [ndat]. destruct (unflat L l q HL Hl Hq) as (-> & -> & ->). reflexivity.
Qed.
Lemma hp_near b L N spin k : b <> Ssht -> nearly_exact (1 / 10) (lib_of b hp) L N spin HEALPIX (Some k) false.
Proof.
  intros Hb. assert (E : nearly_exact (1 / 10) (lib_of Base hp) L N spin HEALPIX (Some k) false).
  2:{ destruct b; try exact E. now contradict Hb. }
  clear b Hb. change (lib_of Base hp) with hp. split.
  - intros L' HL' a (Ha & _). destruct (hp_round L' spin k a ltac:(lia) Ha) as (f & E1 & E2 & E3). exists f, (up2 a).
    do 3 (split; [assumption|]). split; [|apply up2_energy]. split; [now apply up2_harm|intros E; discriminate E].
  - intros L' N' L0 HL' HN' _ HL0 a (Ha & _). destruct (hp_wround L' N' L0 k a ltac:(lia) Ha) as (f & E1 & E2 & E3). exists f, (up3 a).
    do 3 (split; [assumption|]). split; [|apply up3_energy]. split; [now apply up3_wig|intros E; discriminate E].
Qed.

(*% HEALPix with nside = 2 and a library that is a tenth off *)
(*@E C85_example *)
Lemma ex_c85 : exists O psi phi f w sc g glm, nearly_exact (1 / 10) O 5 3 0 HEALPIX (Some 2) false /\
  nearly_exact_lib (1 / 10) Base O 5 3 0 2 0 HEALPIX (Some 2) false /\
  filters_directional_vectorised 5 3 0 2 0 0 = Ok (psi, phi) /\
  (forall l, 0 <= l < 5 -> dir_total 5 psi phi 0 3 l = 1%R) /\ j_max 5 2 = Ok 3 /\
  is_harmonic 5 0 false (demo_flm 5) /\ b_inv O (demo_flm 5) 5 0 HEALPIX (Some 2) false = Ok f /\
  nshape f = [48] /\ b_fwd O f 5 0 HEALPIX (Some 2) false <> Ok (demo_flm 5) /\
  analysis O f 5 3 0 2 0 0 HEALPIX (Some 2) false true false = Ok (w, sc) /\
  synthesis O w sc 5 3 0 2 0 0 HEALPIX (Some 2) false true = Ok g /\
  b_inv O glm 5 0 HEALPIX (Some 2) false = Ok g /\
  (energy2 (sub2 glm (demo_flm 5)) <= (21 / 100) ^ 2 * energy2 (demo_flm 5))%R.
Proof.
  destruct (v5 3 0 ltac:(lia) ltac:(lia)) as (psi & phi & E & T & _).
  pose proof (hp_near Base 5 3 0 2 ltac:(discriminate)) as HX. change (lib_of Base hp) with hp in HX. assert (Hh : is_harmonic 5 0 false (demo_flm 5)) by apply (demo_flm_ok 5 false).
  destruct (near_base (1 / 10) hp (demo_flm 5) 5 3 2 0 3 0 HEALPIX (Some 2) false true psi phi) as (f & w & sc & g & glm & R1 & R2 & R3 & R4 & R5 & R6);
    auto using J5; try lia; try lra.
  exists hp, psi, phi, f, w, sc, g, glm. split; [exact HX|]. split; [split; [exact HX|now intros H]|]. split; [exact E|]. split; [exact T|].
  split; [exact J5|]. split; [exact Hh|]. split; [exact R1|].
  destruct (hp_round 5 0 2 (demo_flm 5) ltac:(lia) (proj1 Hh)) as (f' & F1 & F2 & F3).
  change (b_inv hp) with hp_inv in R1. assert (f' = f) as -> by congruence.
  split; [cbn in F2; congruence|]. split.
  { change (b_fwd hp) with hp_fwd. rewrite F3. intros H. apply Ok_inj in H.
    pose proof (f_equal (fun a => get2 a 0 4) H) as H0. cbn in H0. apply (f_equal fst) in H0. cbn in H0. lra. }
  split; [exact R2|]. split; [exact R3|]. split; [exact R5|]. replace (21 / 100)%R with (1 / 10 * (2 + 1 / 10))%R by lra. exact R6.
Qed.
(*% the same library behind the base, JAX, precompute and Torch transforms *)
(*@E C85_example_every *)
Lemma ex_c85_every : exists O psi phi, filters_directional_vectorised 5 3 1 2 0 0 = Ok (psi, phi) /\
  (forall l, 0 <= l < 5 -> dir_total 5 psi phi 1 3 l = 1%R) /\
  forall b, In b [Base; Jax; Precompute; Torch] -> exists f w sc g glm,
    nearly_exact_lib (1 / 10) b O 5 3 1 2 0 HEALPIX (Some 2) false /\ usable b O 0 HEALPIX (Some 2) false true /\
    b_inv (lib_of b O) (demo_flm 5) 5 0 HEALPIX (Some 2) false = Ok f /\
    b_fwd (lib_of b O) f 5 0 HEALPIX (Some 2) false <> Ok (demo_flm 5) /\
    analysed b O f 5 3 1 2 0 0 HEALPIX (Some 2) false true psi phi w sc /\
    resynthesised b O w sc 5 3 1 2 0 0 HEALPIX (Some 2) false true psi phi g /\
    b_inv (lib_of b O) glm 5 0 HEALPIX (Some 2) false = Ok g /\
    (energy2 (sub2 glm (demo_flm 5)) <= (21 / 100) ^ 2 * energy2 (demo_flm 5))%R.
Proof.
  destruct (v5 3 1 ltac:(lia) ltac:(lia)) as (psi & phi & E & T & _).
  exists hp, psi, phi. split; [exact E|]. split; [exact T|]. intros b Hb.
  assert (Hb' : b <> Ssht) by (cbn in Hb; intros ->; decompose [or] Hb; try discriminate; auto).
  assert (HX : nearly_exact_lib (1 / 10) b hp 5 3 1 2 0 HEALPIX (Some 2) false).
  { split; [now apply hp_near|]. intros _ H1. exfalso. rewrite scal_bandlimit_ok in H1 by lra. apply Ok_inj in H1.
    revert H1. unfold Ls_of. replace (powerRZ 2 1) with (IZR 2) by (simpl; lra). rewrite rceil_IZR. discriminate. }
  assert (U : usable b hp 0 HEALPIX (Some 2) false true) by (destruct b; cbn; auto; now contradict Hb').
  assert (Hh : is_harmonic 5 0 false (demo_flm 5)) by apply (demo_flm_ok 5 false).
  destruct (near_every (1 / 10) b hp (demo_flm 5) 5 3 2 1 3 0 HEALPIX (Some 2) false true psi phi)
    as (f & w & sc & g & glm & R1 & R2 & R3 & R4 & R5 & R6); auto using J5; try lia; try lra.
  exists f, w, sc, g, glm. split; [exact HX|]. split; [exact U|]. split; [exact R1|]. split.
  { destruct (hp_round 5 0 2 (demo_flm 5) ltac:(lia) (proj1 Hh)) as (f' & F1 & F2 & F3).
    assert (F4 : b_inv (lib_of b hp) (demo_flm 5) 5 0 HEALPIX (Some 2) false = Ok f').
    { destruct b; try exact F1. now contradict Hb'. }
    assert (f' = f) as -> by congruence.
    assert (F5 : b_fwd (lib_of b hp) f 5 0 HEALPIX (Some 2) false = Ok (up2 (demo_flm 5))).
    { destruct b; try exact F3. now contradict Hb'. }
    rewrite F5. intros H. apply Ok_inj in H.
    pose proof (f_equal (fun a => get2 a 0 4) H) as H0. cbn in H0. apply (f_equal fst) in H0. cbn in H0. lra. }
  split; [exact R2|]. split; [exact R3|]. split; [exact R5|]. replace (21 / 100)%R with (1 / 10 * (2 + 1 / 10))%R by lra. exact R6.
Qed.
