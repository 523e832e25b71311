(** * Closed forms of the vectorised transforms of every backend *)

From Coq Require Import ZArith Reals List Bool Lia Lra.
From Coquelicot Require Import Rcomplements Complex.
From Verif Require Import Py PyFacts ModelSamples SamplesFacts ModelFilters ModelTransforms Spec
  DirectionFacts DirFilterFacts TransformsFacts.
Import ListNotations.
Open Scope Z_scope.

Definition nd0 : arr3 C := mk3 0 0 0 (fun _ _ _ => RtoC 0).

Section Tr.
Variables (L N J_min J : Z) (lam : R) (mr : bool).
Hypothesis HL : 1 <= L.
Hypothesis HN : 1 <= N <= L.
Hypothesis Hlam : (1 < lam)%R.
Hypothesis EJ : j_max L lam = Ok J.
Hypothesis HJ : 0 <= J_min.

Notation Lj j := (Lj_of L j lam mr).
Notation Nj j := (Nj_of L j N lam mr).
Notation L0 j := (L0_of j lam mr).
Notation Ls := (Ls_of L J_min lam mr).

Definition szf (j : Z) : Z * Z * Z := (Lj j, Nj j, L0 j).

Lemma lam0 : (0 < lam)%R. Proof. lra. Qed.
Lemma sz_facts j : 0 <= j <= J -> 0 <= L0 j <= Lj j /\ 1 <= Lj j <= L /\ 1 <= Nj j <= N /\ Nj j <= L.
Proof.
  intros Hj. pose proof (Lj_range L j lam mr HL lam0). pose proof (L0_nonneg j lam mr lam0).
  destruct (Nj_facts L j N lam mr HL lam0 ltac:(lia)) as (_ & _ & H1 & _).
  pose proof (L0_le_Lj L j j lam mr J HL Hlam EJ ltac:(lia) ltac:(lia) ltac:(lia)). lia.
Qed.

Definition wc (psi : arr3 C) (flm : arr2 C) (j : Z) : arr3 C :=
  wavelet_coefs L psi flm j (Lj j) (Nj j) (L0 j).

(** filters and harmonic coefficients of the right shape *)
Definition psi_sh (psi : arr3 C) : Prop := dim0 psi = J + 1 /\ dim1 psi = L /\ dim2 psi = 2 * L - 1.
Definition flm_sh (n : Z) (a : arr2 C) : Prop := rows a = n /\ cols a = 2 * n - 1.
Definition flmn_sh (n l : Z) (a : arr3 C) : Prop := dim0 a = 2 * n - 1 /\ dim1 a = l /\ dim2 a = 2 * l - 1.

Lemma assign0 (x : C) : assign (RtoC 0) x = x. Proof. reflexivity. Qed.
Lemma plus0 (x : C) : Cplus (RtoC 0) x = x. Proof. ring. Qed.

Ltac an_steps j Hop :=
  let H := fresh in
  match goal with Hl : lrd _ _ = Ok _ |- _ => rewrite (LN_j_ok L j N lam mr lam0); cbn [bind]; rewrite Hl end;
  cbn [bind];
  pose proof (sz_facts j ltac:(lia)) as H;
  rewrite islice_ok by (unfold wpsi; cbn [dim0 dim1 dim2 mk3]; lia); cbn [bind];
  rewrite einsum_an by lia; cbn [bind];
  unfold flmn_zero; rewrite (upd_an L (Lj j) (Nj j) (L0 j) j) by (exact Hop || lia); cbn [bind].

(** base.py: analysis *)
Lemma analysis_ok O f spin s nside reality scattering psi phi :
  J_min <= J -> sampling_ok s (Some (if mr then 1 else 0)) ->
  filters_directional_vectorised L N J_min lam spin 0 = Ok (psi, phi) ->
  psi_sh psi -> len1 phi = L ->
  (forall flm, b_fwd O f L spin s nside reality = Ok flm -> flm_sh L flm) ->
  analysis O f L N J_min lam spin 0 s nside reality mr scattering
  = (flm <- b_fwd O f L spin s nside reality ;;
     w <- mapM (fun j => b_winv O (wc psi flm j) (Lj j) (Nj j) (L0 j) s reality nside)
               (zrange J_min (J + 1)) ;;
     sc <- b_inv O (scaling_coefs L phi flm Ls) Ls spin s nside reality ;;
     Ok (if scattering then map nd_abs w else w, sc)).
Proof.
  intros HJJ Hs EF (P0 & P1 & P2) Hphi Hf. unfold analysis. rewrite EJ. cbn [bind].
  rewrite scal_bandlimit_ok by apply lam0. cbn [bind].
  rewrite construct_flm_ok by (auto using lam0). cbn [bind].
  rewrite (construct_flmn_ok L N J_min lam mr J) by (auto using lam0; lia). cbn [bind].
  rewrite (construct_f_ok L N J_min lam s _ false J) by (auto using lam0; lia). cbn [bind].
  rewrite EF. cbn [bind]. rewrite (wpsi_ok L) by lia. cbn [bind].
  apply bind_ext. intros flm Ef. destruct (Hf flm Ef) as [F1 F2].
  set (h := fun y => if scattering then nd_abs y else y).
  rewrite (loop_lwr (flmn_zero L N lam mr) (wc psi flm) _
     (fun j => b_winv O (wc psi flm j) (Lj j) (Nj j) (L0 j) s reality nside) h); [|lia|].
  - rewrite bind_assoc. apply bind_ext. intros w _. cbn [bind].
    pose proof (Ls_range L J_min lam mr HL lam0).
    rewrite (phi4_ok phi L) by auto. cbn [bind]. rewrite scal_an by auto. cbn [bind].
    apply bind_ext. intros sc _. f_equal. f_equal. unfold h. destruct scattering; auto. apply map_id.
  - intros j l fw Hj Hl Hfw. an_steps j assign0. fold (wc psi flm j).
    destruct (lwr l (j - J_min) (wc psi flm j)) as [l'|]; cbn [bind]; auto.
    destruct (b_winv O (wc psi flm j) (Lj j) (Nj j) (L0 j) s reality nside) as [y|]; cbn [bind]; auto.
    unfold lwr. rewrite Hfw, Z2Nat.id by lia. rewrite idx_ok by lia. cbn [bind].
    unfold h. destruct scattering; [|reflexivity].
    unfold lrd. rewrite lset_length, Hfw, Z2Nat.id by lia. rewrite idx_ok by lia. cbn [bind].
    rewrite nth_error_lset by lia. rewrite Nat.eqb_refl. cbn [bind].
    do 2 f_equal. generalize (Z.to_nat (j - J_min)) as k. clear. intros k.
    revert k. induction fw as [|x fw IH]; destruct k; simpl; auto. now rewrite IH.
Qed.
Definition syn (psi : arr3 C) (phi : arr1 R) (Ts : list (arr3 C)) (S : arr2 C) : arr2 C :=
  synthesised L J_min J psi phi szf (Tnth nd0 J_min Ts) Ls S.

(** the loop over scales of a synthesis, for an arbitrary source f of Wigner coefficients *)
Lemma sy_loop psi (f : Z -> res (arr3 C)) body :
  J_min <= J + 1 -> psi_sh psi ->
  (forall j T, J_min <= j <= J -> f j = Ok T -> flmn_sh (Nj j) (Lj j) T) ->
  (forall j g, J_min <= j <= J ->
     body j (mk2 L (2 * L - 1) g)
     = (T <- f j ;;
        w <- islice3 psi j (between (L0 j) (Lj j)) (between2 (L - Nj j) (L - 1 + Nj j)) ;;
        x <- einsum_ln_nlm_lm w (slice3 T every2 (from (L0 j)) full) ;;
        upd2 Cplus (mk2 L (2 * L - 1) g) (between (L0 j) (Lj j)) (between (L - Lj j) (L - 1 + Lj j)) x)) ->
  for_ (zrange J_min (J + 1)) (mk2 L (2 * L - 1) (fun _ _ => RtoC 0)) body
  = (Ts <- mapM f (zrange J_min (J + 1)) ;;
     Ok (mk2 L (2 * L - 1) (fun l q => csumZ J_min (J + 1) (fun j =>
           wavelet_part L psi j (Lj j) (Nj j) (L0 j) (Tnth nd0 J_min Ts j) l (q - (L - 1)))))).
Proof.
  intros HJJ (P0 & P1 & P2) HT Hb.
  apply (loop_sum L (2 * L - 1) nd0
    (fun j T l q => wavelet_part L psi j (Lj j) (Nj j) (L0 j) T l (q - (L - 1))) f); [lia|].
  intros j g Hj. rewrite Hb by lia. apply bind_ext. intros T ET.
  destruct (HT j T) as (T0 & T1 & T2); auto; [lia|].
  pose proof (sz_facts j ltac:(lia)).
  rewrite islice_ok by lia. cbn [bind]. rewrite einsum_sy by lia. cbn [bind].
  apply upd_sy; lia.
Qed.
Lemma sy_scal psi phi Ts S : len1 phi = L -> flm_sh Ls S ->
  (phi0 <- mul1 (slice1 phi (upto Ls)) (sca_weights Ls) ;;
   x <- einsum_lm_l_lm S phi0 ;;
   upd2 Cplus (mk2 L (2 * L - 1) (fun l q => csumZ J_min (J + 1) (fun j =>
           wavelet_part L psi j (Lj j) (Nj j) (L0 j) (Tnth nd0 J_min Ts j) l (q - (L - 1)))))
        (upto Ls) (between (L - Ls) (L - 1 + Ls)) x)
  = Ok (syn psi phi Ts S).
Proof.
  intros Hphi (S1 & S2). pose proof (Ls_range L J_min lam mr HL lam0).
  rewrite (phi4_ok phi L) by auto. cbn [bind]. rewrite scal_sy1 by (auto; lia). cbn [bind].
  rewrite scal_sy2 by lia. reflexivity.
Qed.

(** base.py: synthesis *)
Lemma synthesis_ok O f_wav f_scal spin s nside reality psi phi :
  J_min <= J ->
  filters_directional_vectorised L N J_min lam spin 0 = Ok (psi, phi) ->
  psi_sh psi -> len1 phi = L ->
  (forall S, b_fwd O f_scal Ls spin s nside reality = Ok S -> flm_sh Ls S) ->
  (forall j fj T, J_min <= j <= J -> lrd f_wav (j - J_min) = Ok fj ->
     b_wfwd O fj (Lj j) (Nj j) (L0 j) s reality nside = Ok T -> flmn_sh (Nj j) (Lj j) T) ->
  synthesis O f_wav f_scal L N J_min lam spin 0 s nside reality mr
  = (_ <- wavelet_shape_check f_wav f_scal L N J_min lam s nside mr ;;
     S <- b_fwd O f_scal Ls spin s nside reality ;;
     Ts <- mapM (fun j => fj <- lrd f_wav (j - J_min) ;;
                          b_wfwd O fj (Lj j) (Nj j) (L0 j) s reality nside)
                (zrange J_min (J + 1)) ;;
     b_inv O (syn psi phi Ts S) L spin s nside reality).
Proof.
  intros HJJ EF HP Hphi HS HT. unfold synthesis. apply bind_ext. intros _ _.
  rewrite EJ. cbn [bind]. rewrite scal_bandlimit_ok by apply lam0. cbn [bind].
  rewrite zeros2_ok by lia. cbn [bind]. apply bind_ext. intros S ES. rewrite EF. cbn [bind].
  rewrite (sy_loop psi (fun j => fj <- lrd f_wav (j - J_min) ;;
                          b_wfwd O fj (Lj j) (Nj j) (L0 j) s reality nside)); auto; [|lia| |].
  - rewrite bind_assoc. apply bind_ext. intros Ts _. cbn [bind].
    pose proof (sy_scal psi phi Ts S Hphi (HS S ES)) as E.
    destruct (mul1 _ _); cbn [bind] in *; [|discriminate].
    destruct (einsum_lm_l_lm _ _); cbn [bind] in *; [|discriminate].
    rewrite E. reflexivity.
  - intros j T Hj E. apply bind_inv in E as (fj & E1 & E2). eauto.
  - intros j g Hj. rewrite LN_j_ok by apply lam0. cbn [bind]. now rewrite bind_assoc.
Qed.
End Tr.

(** ** Kernels *)

Definition rkf (L N : Z) (lam : R) (s : sampling) (nside : option Z) (forward reality : bool) (j : Z) :=
  RKern (Lj_of L j lam true) (Nj_of L j N lam true) s nside forward reality (L0_of j lam true).
Definition wkf (L N : Z) (lam : R) (s : sampling) (nside : option Z) (forward reality : bool) (j : Z) :=
  WKern (Lj_of L j lam true) (Nj_of L j N lam true) reality s nside forward.

Lemma gen_wigner_ok L N J_min lam s nside forward reality J : (0 < lam)%R ->
  j_max L lam = Ok J -> J_min <= J + 1 ->
  generate_wigner_precomputes L N J_min lam s nside forward reality
  = Ok (map (rkf L N lam s nside forward reality) (zrange J_min (J + 1))).
Proof.
  intros Hl EJ HJ. unfold generate_wigner_precomputes. rewrite EJ. cbn [bind].
  apply for_append; [lia|]. intros i acc Hi. now rewrite LN_j_ok.
Qed.
Lemma gen_full_ok L N J_min lam s nside forward reality nosph J : (0 < lam)%R ->
  j_max L lam = Ok J -> J_min <= J ->
  generate_full_precomputes L N J_min lam s nside forward reality nosph
  = Ok (if nosph then None else Some (SKern L 0 reality s nside (negb forward)),
        if nosph then None else Some (SKern (Ls_of L J_min lam true) 0 reality s nside forward),
        map (wkf L N lam s nside forward reality) (zrange J_min J)).
Proof.
  intros Hl EJ HJ. unfold generate_full_precomputes. rewrite EJ. cbn [bind].
  rewrite (for_append (wkf L N lam s nside forward reality)).
  - cbn [bind]. rewrite scal_bandlimit_ok by assumption. cbn [bind]. now destruct nosph.
  - assumption.
  - intros i acc Hi. now rewrite LN_j_ok.
Qed.

Definition one_pixel (a : arr2 C) : nd :=
  nd_of2 (map2 (fun x => Cmult x (RtoC (sqrt (1 / (4 * PI))))) a).

Section Jx.
Variables (L N J_min J : Z) (lam : R).
Hypothesis HL : 1 <= L.
Hypothesis HN : 1 <= N <= L.
Hypothesis Hlam : (1 < lam)%R.
Hypothesis EJ : j_max L lam = Ok J.
Hypothesis HJ : 0 <= J_min.

Notation Lj j := (Lj_of L j lam true).
Notation Nj j := (Nj_of L j N lam true).
Notation L0 j := (L0_of j lam true).
Notation Ls := (Ls_of L J_min lam true).
Notation wc := (wc L N lam true).
Notation lam0 := (lam0 lam Hlam).

Ltac an_steps j Hop :=
  let H := fresh in
  match goal with Hl : lrd _ _ = Ok _ |- _ => rewrite (LN_j_ok L j N lam true lam0); cbn [bind]; rewrite Hl end;
  cbn [bind];
  pose proof (sz_facts L N J lam true HL HN Hlam EJ j ltac:(lia)) as H;
  rewrite islice_ok by (unfold wpsi; cbn [dim0 dim1 dim2 mk3]; lia); cbn [bind];
  rewrite einsum_an by lia; cbn [bind];
  unfold flmn_zero; rewrite (upd_an L (Lj j) (Nj j) (L0 j) j) by (exact Hop || lia); cbn [bind].

(** wavelet.py: analysis *)
Lemma jax_analysis_ok O f spin s nside reality psi phi p :
  J_min <= J -> psi_sh L J psi -> len1 phi = L ->
  (forall flm, j_fwd O f L spin nside s reality = Ok flm -> flm_sh L flm) ->
  jax_analysis O f L N J_min lam spin s nside reality (Some (psi, phi)) (Some p)
  = (flm <- j_fwd O f L spin nside s reality ;;
     w <- mapM (fun j => pj <- lrd p (j - J_min) ;;
                         j_winv O (wc psi flm j) (Lj j) (Nj j) nside s reality pj (L0 j))
               (zrange J_min (J + 1)) ;;
     sc <- (if Ls =? 1 then Ok (one_pixel (scaling_coefs L phi flm Ls))
            else j_inv O (scaling_coefs L phi flm Ls) Ls spin nside s reality) ;;
     Ok (w, sc)).
Proof.
  intros HJJ (P0 & P1 & P2) Hphi Hf. unfold jax_analysis. cbn [bind]. rewrite EJ. cbn [bind].
  rewrite scal_bandlimit_ok by apply lam0. cbn [bind need fst snd].
  rewrite (wpsi_ok L) by lia. cbn [bind].
  apply bind_ext. intros flm Ef. destruct (Hf flm Ef) as [F1 F2].
  rewrite (construct_flmn_jax_ok L N J_min lam true J) by (auto using lam0; lia). cbn [bind].
  rewrite (loop_append (flmn_zero L N lam true) (wc psi flm)
     (fun j => pj <- lrd p (j - J_min) ;;
               j_winv O (wc psi flm j) (Lj j) (Nj j) nside s reality pj (L0 j))); [|lia|].
  - rewrite bind_assoc. apply bind_ext. intros w _. cbn [bind].
    pose proof (Ls_range L J_min lam true HL lam0).
    rewrite (phi4_ok phi L) by auto. cbn [bind]. rewrite scal_an by auto. cbn [bind]. reflexivity.
  - intros j l fw Hj Hl. an_steps j plus0. fold (wc psi flm j).
    apply bind_ext. intros l' _. now rewrite bind_assoc.
Qed.

(** wavelet_precompute.py: analysis *)
Lemma pre_analysis_ok O f spin s nside reality psi phi k0 p1 p :
  J_min <= J -> psi_sh L J psi -> len1 phi = L ->
  (forall flm, p_fwd O f k0 L s reality spin nside = Ok flm -> flm_sh L flm) ->
  pre_analysis O f L N J_min lam spin s nside reality (Some (psi, phi)) (Some (Some k0, p1, p))
  = (flm <- p_fwd O f k0 L s reality spin nside ;;
     w <- mapM (fun j => pj <- lrd p (j - J_min + (if j <? J then 0 else -1)) ;;
                         p_winv O (wc psi flm j) pj (Lj j) (Nj j) s reality nside)
               (zrange J_min (J + 1)) ;;
     sc <- (if Ls =? 1 then Ok (one_pixel (scaling_coefs L phi flm Ls))
            else k1 <- need p1 ;; p_inv O (scaling_coefs L phi flm Ls) k1 Ls s reality spin nside) ;;
     Ok (w, sc)).
Proof.
  intros HJJ (P0 & P1 & P2) Hphi Hf. unfold pre_analysis. cbn [bind]. rewrite EJ. cbn [bind].
  rewrite scal_bandlimit_ok by apply lam0. cbn [bind need fst snd].
  rewrite (wpsi_ok L) by lia. cbn [bind].
  apply bind_ext. intros flm Ef. destruct (Hf flm Ef) as [F1 F2].
  rewrite (construct_flmn_jax_ok L N J_min lam true J) by (auto using lam0; lia). cbn [bind].
  rewrite (loop_append (flmn_zero L N lam true) (wc psi flm)
     (fun j => pj <- lrd p (j - J_min + (if j <? J then 0 else -1)) ;;
               p_winv O (wc psi flm j) pj (Lj j) (Nj j) s reality nside)); [|lia|].
  - rewrite bind_assoc. apply bind_ext. intros w _. cbn [bind].
    pose proof (Ls_range L J_min lam true HL lam0).
    rewrite (phi4_ok phi L) by auto. cbn [bind]. rewrite scal_an by auto. cbn [bind]. reflexivity.
  - intros j l fw Hj Hl. an_steps j plus0. fold (wc psi flm j).
    apply bind_ext. intros l' _. now rewrite bind_assoc.
Qed.

(** wavelet_precompute_torch.py: analysis *)
Lemma torch_analysis_ok O f spin s nside reality psi phi k0 p1 p :
  J_min <= J -> psi_sh L J psi -> len1 phi = L ->
  (forall flm, t_fwd O f k0 L s reality spin nside = Ok flm -> flm_sh L flm) ->
  torch_analysis O f L N J_min lam spin s nside reality (Some (psi, phi)) (Some (Some k0, p1, p))
  = (flm <- t_fwd O f k0 L s reality spin nside ;;
     w <- mapM (fun j => pj <- lrd p (j - J_min + (if j <? J then 0 else -1)) ;;
                         t_winv O (wc psi flm j) pj (Lj j) (Nj j) s reality nside)
               (zrange J_min (J + 1)) ;;
     sc <- (if Ls =? 1 then Ok (one_pixel (scaling_coefs L phi flm Ls))
            else k1 <- need p1 ;; t_inv O (scaling_coefs L phi flm Ls) k1 Ls s reality spin nside) ;;
     Ok (map Some w, sc)).
Proof.
  intros HJJ (P0 & P1 & P2) Hphi Hf. unfold torch_analysis. cbn [bind]. rewrite EJ. cbn [bind].
  rewrite scal_bandlimit_ok by apply lam0. cbn [bind need fst snd].
  rewrite construct_flmn_torch_eq.
  rewrite (construct_flmn_jax_ok L N J_min lam true J) by (auto using lam0; lia). cbn [bind].
  unfold construct_f_torch, pick_J. cbn [bind].
  rewrite (for_append (fun _ => @nil nd)) by (auto; lia). cbn [bind]. rewrite map_map.
  rewrite (wpsi_ok L) by lia. cbn [bind].
  apply bind_ext. intros flm Ef. destruct (Hf flm Ef) as [F1 F2].
  rewrite (loop_lwr (flmn_zero L N lam true) (wc psi flm) _
     (fun j => pj <- lrd p (j - J_min + (if j <? J then 0 else -1)) ;;
               t_winv O (wc psi flm j) pj (Lj j) (Nj j) s reality nside) Some); [|lia|].
  - rewrite bind_assoc. apply bind_ext. intros w _. cbn [bind].
    pose proof (Ls_range L J_min lam true HL lam0).
    rewrite (phi4_ok phi L) by auto. cbn [bind]. rewrite scal_an by auto. cbn [bind]. reflexivity.
  - intros j l fw Hj Hl _. an_steps j plus0. fold (wc psi flm j).
    apply bind_ext. intros l' _. now rewrite bind_assoc.
Qed.

(** flm_to_analysis, for a top scale Jt <= J *)
Lemma jax_flm_ok O flm Jt s nside reality psi p :
  J_min <= Jt + 1 -> Jt <= J -> psi_sh L J psi -> flm_sh L flm ->
  jax_flm_to_analysis O flm L N J_min (Some Jt) lam s nside reality (Some psi) (Some p)
  = mapM (fun j => pj <- lrd p (j - J_min) ;;
                   j_winv O (wc psi flm j) (Lj j) (Nj j) nside s reality pj (L0 j))
         (zrange J_min (Jt + 1)).
Proof.
  intros H1 H2 (P0 & P1 & P2) (F1 & F2). unfold jax_flm_to_analysis. cbn [bind pick_J need].
  rewrite (wpsi_ok L) by lia. cbn [bind].
  rewrite (construct_flmn_jax_ok L N J_min lam true Jt) by (auto using lam0; lia). cbn [bind].
  rewrite (loop_append (flmn_zero L N lam true) (wc psi flm)
     (fun j => pj <- lrd p (j - J_min) ;;
               j_winv O (wc psi flm j) (Lj j) (Nj j) nside s reality pj (L0 j))); [|lia|].
  - rewrite bind_assoc. destruct (mapM _ _); reflexivity.
  - intros j l fw Hj Hl. an_steps j plus0. fold (wc psi flm j).
    apply bind_ext. intros l' _. now rewrite bind_assoc.
Qed.
Definition shift (Jt j : Z) (b : bool) : Z := if b then (if j <? Jt then 0 else -1) else 0.
Lemma pre_flm_ok O flm Jt s nside reality psi p0 p1 p b :
  J_min <= Jt + 1 -> Jt <= J -> psi_sh L J psi -> flm_sh L flm ->
  pre_flm_to_analysis O flm L N J_min (Some Jt) lam s nside reality (Some psi) (Some (p0, p1, p)) b
  = mapM (fun j => pj <- lrd p (j - J_min + shift Jt j b) ;;
                   p_winv O (wc psi flm j) pj (Lj j) (Nj j) s reality nside)
         (zrange J_min (Jt + 1)).
Proof.
  intros H1 H2 (P0 & P1 & P2) (F1 & F2). unfold pre_flm_to_analysis. cbn [bind pick_J need].
  rewrite (wpsi_ok L) by lia. cbn [bind].
  rewrite (construct_flmn_jax_ok L N J_min lam true Jt) by (auto using lam0; lia). cbn [bind].
  rewrite (loop_append (flmn_zero L N lam true) (wc psi flm)
     (fun j => pj <- lrd p (j - J_min + shift Jt j b) ;;
               p_winv O (wc psi flm j) pj (Lj j) (Nj j) s reality nside)); [|lia|].
  - rewrite bind_assoc. destruct (mapM _ _); reflexivity.
  - intros j l fw Hj Hl. an_steps j plus0. fold (wc psi flm j).
    apply bind_ext. intros l' _. now rewrite bind_assoc.
Qed.
Lemma torch_flm_ok O flm Jt s nside reality psi p0 p1 p :
  J_min <= Jt + 1 -> Jt <= J -> psi_sh L J psi -> flm_sh L flm ->
  torch_flm_to_analysis O flm L N J_min (Some Jt) lam s nside reality (Some psi) (Some (p0, p1, p))
  = (ys <- mapM (fun j => pj <- lrd p (j - J_min + shift Jt j true) ;;
                   t_winv O (wc psi flm j) pj (Lj j) (Nj j) s reality nside)
         (zrange J_min (Jt + 1)) ;; Ok (map Some ys)).
Proof.
  intros H1 H2 (P0 & P1 & P2) (F1 & F2). unfold torch_flm_to_analysis. cbn [bind pick_J need].
  rewrite construct_flmn_torch_eq.
  rewrite (construct_flmn_jax_ok L N J_min lam true Jt) by (auto using lam0; lia). cbn [bind].
  unfold construct_f_torch, pick_J. cbn [bind].
  rewrite (for_append (fun _ => @nil nd)) by (auto; lia). cbn [bind]. rewrite map_map.
  rewrite (wpsi_ok L) by lia. cbn [bind].
  rewrite (loop_lwr (flmn_zero L N lam true) (wc psi flm) _
     (fun j => pj <- lrd p (j - J_min + shift Jt j true) ;;
               t_winv O (wc psi flm j) pj (Lj j) (Nj j) s reality nside) Some); [|lia|].
  - rewrite bind_assoc. destruct (mapM _ _); reflexivity.
  - intros j l fw Hj Hl _. an_steps j plus0. fold (wc psi flm j).
    apply bind_ext. intros l' _. now rewrite bind_assoc.
Qed.

(** wavelet_c.py *)
Lemma c_wavelets_ok flm Jt psi :
  J_min <= Jt + 1 -> Jt <= J -> psi_sh L J psi -> flm_sh L flm ->
  c_apply_wavelets flm L N J_min Jt lam (Some psi) = Ok (map (wc psi flm) (zrange J_min (Jt + 1))).
Proof.
  intros H1 H2 (P0 & P1 & P2) (F1 & F2). unfold c_apply_wavelets. cbn [bind need].
  rewrite (construct_flmn_jax_ok L N J_min lam true Jt) by (auto using lam0; lia). cbn [bind].
  rewrite (wpsi_ok L) by lia. cbn [bind].
  apply for_lwr; [lia|]. intros j l Hj Hl. an_steps j plus0. reflexivity.
Qed.
Lemma c_scaling_ok flm phi : len1 phi = L -> flm_sh L flm ->
  c_apply_scaling flm L J_min lam (Some phi) = Ok (scaling_coefs L phi flm Ls).
Proof.
  intros Hphi (F1 & F2). unfold c_apply_scaling. rewrite scal_bandlimit_ok by apply lam0.
  cbn [bind need]. pose proof (Ls_range L J_min lam true HL lam0).
  rewrite (phi4_ok phi L) by auto. cbn [bind]. now apply scal_an.
Qed.
Lemma c_winv_loop O Jt W s reality :
  J_min <= Jt + 1 -> Jt <= J ->
  for_ (zrange J_min (Jt + 1)) [] (fun j f_wav =>
    ' (Lj, Nj, L0j) <- LN_j L j N lam true ;;
    a <- lrd (map W (zrange J_min (Jt + 1))) (j - J_min) ;;
    y <- c_winv O a Lj Nj L0j s reality ;;
    Ok (f_wav ++ [y]))
  = mapM (fun j => c_winv O (W j) (Lj j) (Nj j) (L0 j) s reality) (zrange J_min (Jt + 1)).
Proof.
  intros H1 H2. apply loop_out; [lia|]. intros j fw Hj. rewrite (LN_j_ok L j N lam true lam0).
  cbn [bind]. rewrite lrd_map by lia. reflexivity.
Qed.
Lemma ssht_analysis_ok O f spin s reality psi phi ix :
  J_min <= J -> ssht_sampling s = Ok ix -> psi_sh L J psi -> len1 phi = L ->
  (forall flm, c_fwd O f L spin reality ix = Ok flm -> flm_sh L flm) ->
  ssht_analysis O f L N J_min lam spin s reality (Some (psi, phi))
  = (flm <- c_fwd O f L spin reality ix ;;
     w <- mapM (fun j => c_winv O (wc psi flm j) (Lj j) (Nj j) (L0 j) s reality)
               (zrange J_min (J + 1)) ;;
     sc <- (if Ls =? 1 then Ok (one_pixel (scaling_coefs L phi flm Ls))
            else c_inv O (scaling_coefs L phi flm Ls) Ls spin reality ix) ;;
     Ok (w, sc)).
Proof.
  intros HJJ Es HP Hphi Hf. unfold ssht_analysis. rewrite Es, EJ. cbn [bind].
  rewrite scal_bandlimit_ok by apply lam0. cbn [bind need fst snd].
  apply bind_ext. intros flm Ef. pose proof (Hf flm Ef) as F.
  rewrite (c_wavelets_ok flm J) by (auto; lia). cbn [bind].
  rewrite c_scaling_ok by auto. cbn [bind]. rewrite c_winv_loop by lia. reflexivity.
Qed.
Lemma ssht_flm_ok O flm Jt s reality psi :
  J_min <= Jt + 1 -> Jt <= J -> psi_sh L J psi -> flm_sh L flm ->
  ssht_flm_to_analysis O flm L N J_min (Some Jt) lam s reality (Some psi)
  = mapM (fun j => c_winv O (wc psi flm j) (Lj j) (Nj j) (L0 j) s reality) (zrange J_min (Jt + 1)).
Proof.
  intros H1 H2 HP F. unfold ssht_flm_to_analysis. cbn [bind pick_J].
  rewrite (c_wavelets_ok flm Jt) by auto. cbn [bind]. now apply c_winv_loop.
Qed.
(** wavelet.py: synthesis *)
Notation syn := (syn L N J_min J lam true).
Lemma jax_synthesis_ok O f_wav f_scal spin s nside reality psi phi p :
  J_min <= J -> psi_sh L J psi -> len1 phi = L ->
  (forall S, j_fwd O f_scal Ls spin nside s reality = Ok S -> flm_sh Ls S) ->
  (forall j fj pj T, J_min <= j <= J -> lrd f_wav (j - J_min) = Ok fj ->
     lrd p (j - J_min) = Ok pj ->
     j_wfwd O fj (Lj j) (Nj j) nside s reality pj (L0 j) = Ok T -> flmn_sh (Nj j) (Lj j) T) ->
  jax_synthesis O f_wav f_scal L N J_min lam spin s nside reality (Some (psi, phi)) (Some p)
  = (S <- j_fwd O f_scal Ls spin nside s reality ;;
     Ts <- mapM (fun j => fj <- lrd f_wav (j - J_min) ;; pj <- lrd p (j - J_min) ;;
                          j_wfwd O fj (Lj j) (Nj j) nside s reality pj (L0 j))
                (zrange J_min (J + 1)) ;;
     j_inv O (syn psi phi Ts S) L spin nside s reality).
Proof.
  intros HJJ HP Hphi HS HT. unfold jax_synthesis. cbn [bind].
  rewrite EJ. cbn [bind]. rewrite scal_bandlimit_ok by apply lam0. cbn [bind].
  rewrite zeros2_ok by lia. cbn [bind]. apply bind_ext. intros S ES. cbn [need bind fst snd].
  rewrite (sy_loop L N J_min J lam true HL HN Hlam EJ HJ psi
     (fun j => fj <- lrd f_wav (j - J_min) ;; pj <- lrd p (j - J_min) ;;
               j_wfwd O fj (Lj j) (Nj j) nside s reality pj (L0 j))); auto; [|lia| |].
  - rewrite bind_assoc. apply bind_ext. intros Ts _. cbn [bind].
    pose proof (sy_scal L N J_min J lam true HL Hlam psi phi Ts S Hphi (HS S ES)) as E.
    destruct (mul1 _ _); cbn [bind] in *; [|discriminate].
    destruct (einsum_lm_l_lm _ _); cbn [bind] in *; [|discriminate].
    rewrite E. reflexivity.
  - intros j T Hj E. apply bind_inv in E as (fj & E1 & E2). apply bind_inv in E2 as (pj & E2 & E3).
    eauto.
  - intros j g Hj. rewrite LN_j_ok by apply lam0. cbn [bind]. rewrite bind_assoc.
    apply bind_ext. intros fj _. now rewrite bind_assoc.
Qed.


(** wavelet_precompute.py: synthesis *)
Lemma pre_synthesis_ok O f_wav f_scal spin s nside reality psi phi k0 k1 p :
  J_min <= J -> psi_sh L J psi -> len1 phi = L ->
  (forall S, p_fwd O f_scal k1 Ls s reality spin nside = Ok S -> flm_sh Ls S) ->
  (forall j fj pj T, J_min <= j <= J -> lrd f_wav (j - J_min) = Ok fj ->
     lrd p (j - J_min + (if j <? J then 0 else -1)) = Ok pj ->
     p_wfwd O fj pj (Lj j) (Nj j) s reality nside = Ok T -> flmn_sh (Nj j) (Lj j) T) ->
  pre_synthesis O f_wav f_scal L N J_min lam spin s nside reality (Some (psi, phi)) (Some (Some k0, Some k1, p))
  = (S <- p_fwd O f_scal k1 Ls s reality spin nside ;;
     Ts <- mapM (fun j => fj <- lrd f_wav (j - J_min) ;; pj <- lrd p (j - J_min + (if j <? J then 0 else -1)) ;;
                          p_wfwd O fj pj (Lj j) (Nj j) s reality nside)
                (zrange J_min (J + 1)) ;;
     p_inv O (syn psi phi Ts S) k0 L s reality spin nside).
Proof.
  intros HJJ HP Hphi HS HT. unfold pre_synthesis. cbn [bind].
  rewrite EJ. cbn [bind]. rewrite scal_bandlimit_ok by apply lam0. cbn [bind].
  rewrite zeros2_ok by lia. cbn [bind need]. apply bind_ext. intros S ES. cbn [need bind fst snd].
  rewrite (sy_loop L N J_min J lam true HL HN Hlam EJ HJ psi
     (fun j => fj <- lrd f_wav (j - J_min) ;; pj <- lrd p (j - J_min + (if j <? J then 0 else -1)) ;;
               p_wfwd O fj pj (Lj j) (Nj j) s reality nside)); auto; [|lia| |].
  - rewrite bind_assoc. apply bind_ext. intros Ts _. cbn [bind].
    pose proof (sy_scal L N J_min J lam true HL Hlam psi phi Ts S Hphi (HS S ES)) as E.
    destruct (mul1 _ _); cbn [bind] in *; [|discriminate].
    destruct (einsum_lm_l_lm _ _); cbn [bind] in *; [|discriminate].
    rewrite E. reflexivity.
  - intros j T Hj E. apply bind_inv in E as (fj & E1 & E2). apply bind_inv in E2 as (pj & E2 & E3).
    eauto.
  - intros j g Hj. rewrite LN_j_ok by apply lam0. cbn [bind]. rewrite bind_assoc.
    apply bind_ext. intros fj _. now rewrite bind_assoc.
Qed.


(** wavelet_precompute_torch.py: synthesis *)
Lemma torch_synthesis_ok O f_wav f_scal spin s nside reality psi phi k0 k1 p :
  J_min <= J -> psi_sh L J psi -> len1 phi = L ->
  (forall S, t_fwd O f_scal k1 Ls s reality spin nside = Ok S -> flm_sh Ls S) ->
  (forall j fj pj T, J_min <= j <= J -> lrd f_wav (j - J_min) = Ok fj ->
     lrd p (j - J_min + (if j <? J then 0 else -1)) = Ok pj ->
     t_wfwd O fj pj (Lj j) (Nj j) s reality nside = Ok T -> flmn_sh (Nj j) (Lj j) T) ->
  torch_synthesis O f_wav f_scal L N J_min lam spin s nside reality (Some (psi, phi)) (Some (Some k0, Some k1, p))
  = (S <- t_fwd O f_scal k1 Ls s reality spin nside ;;
     Ts <- mapM (fun j => fj <- lrd f_wav (j - J_min) ;; pj <- lrd p (j - J_min + (if j <? J then 0 else -1)) ;;
                          t_wfwd O fj pj (Lj j) (Nj j) s reality nside)
                (zrange J_min (J + 1)) ;;
     t_inv O (syn psi phi Ts S) k0 L s reality spin nside).
Proof.
  intros HJJ HP Hphi HS HT. unfold torch_synthesis. cbn [bind].
  rewrite EJ. cbn [bind]. rewrite scal_bandlimit_ok by apply lam0. cbn [bind].
  rewrite zeros2_ok by lia. cbn [bind need]. apply bind_ext. intros S ES. cbn [need bind fst snd].
  rewrite (sy_loop L N J_min J lam true HL HN Hlam EJ HJ psi
     (fun j => fj <- lrd f_wav (j - J_min) ;; pj <- lrd p (j - J_min + (if j <? J then 0 else -1)) ;;
               t_wfwd O fj pj (Lj j) (Nj j) s reality nside)); auto; [|lia| |].
  - rewrite bind_assoc. apply bind_ext. intros Ts _. cbn [bind].
    pose proof (sy_scal L N J_min J lam true HL Hlam psi phi Ts S Hphi (HS S ES)) as E.
    destruct (mul1 _ _); cbn [bind] in *; [|discriminate].
    destruct (einsum_lm_l_lm _ _); cbn [bind] in *; [|discriminate].
    rewrite E. reflexivity.
  - intros j T Hj E. apply bind_inv in E as (fj & E1 & E2). apply bind_inv in E2 as (pj & E2 & E3).
    eauto.
  - intros j g Hj. rewrite LN_j_ok by apply lam0. cbn [bind]. rewrite bind_assoc.
    apply bind_ext. intros fj _. now rewrite bind_assoc.
Qed.


(** wavelet_c.py: synthesis *)
Lemma c_sum_ok W S psi phi : J_min <= J -> psi_sh L J psi -> len1 phi = L -> flm_sh Ls S ->
  length W = Z.to_nat (J + 1 - J_min) ->
  (forall j a, J_min <= j <= J -> lrd W (j - J_min) = Ok a -> flmn_sh (Nj j) (Lj j) a) ->
  c_sum W S L N J_min J lam (Some (psi, phi)) = Ok (syn psi phi W S).
Proof.
  intros HJJ HP Hphi HS HWl HW. unfold c_sum. rewrite scal_bandlimit_ok by apply lam0. cbn [bind].
  rewrite zeros2_ok by lia. cbn [bind need fst snd].
  rewrite (sy_loop L N J_min J lam true HL HN Hlam EJ HJ psi (fun j => lrd W (j - J_min))); auto; [|lia|].
  - assert (Em : mapM (fun j => lrd W (j - J_min)) (zrange J_min (J + 1)) = Ok W).
    { rewrite (mapM_ok _ (fun j => Tnth nd0 J_min W j)).
      - f_equal. apply list_ext.
        + rewrite map_length, zrange_length. auto.
        + rewrite map_length, zrange_length. intros i Hi. rewrite nth_error_map.
          rewrite <- (Nat2Z.id i) at 1. rewrite nth_error_zrange by lia. cbn [option_map].
          unfold Tnth. replace (Z.to_nat (J_min + Z.of_nat i - J_min)) with i by lia.
          symmetry. apply nth_error_nth'. lia.
      - intros j Hj. apply In_zrange in Hj. unfold lrd. rewrite idx_ok by lia. cbn [bind].
        unfold Tnth. rewrite (nth_error_nth' W nd0) by lia. reflexivity. }
    rewrite Em. cbn [bind].
    pose proof (sy_scal L N J_min J lam true HL Hlam psi phi W S Hphi HS) as E. exact E.
  - intros j g Hj. rewrite LN_j_ok by apply lam0. cbn [bind].
    pose proof (sz_facts L N J lam true HL HN Hlam EJ j ltac:(lia)). destruct HP as (P0 & P1 & P2).
    rewrite islice_ok by lia. cbn [bind]. reflexivity.
Qed.
Lemma ssht_synthesis_ok O f_wav f_scal spin s (reality : bool) psi phi ix :
  J_min <= J -> ssht_sampling s = Ok ix -> psi_sh L J psi -> len1 phi = L ->
  (forall S, c_fwd O (if reality then nd_real f_scal else f_scal) Ls spin reality ix = Ok S ->
     flm_sh Ls S) ->
  (forall j fj T, J_min <= j <= J -> lrd f_wav (j - J_min) = Ok fj ->
     c_wfwd O fj (Lj j) (Nj j) (L0 j) s reality = Ok T -> flmn_sh (Nj j) (Lj j) T) ->
  ssht_synthesis O f_wav f_scal L N J_min lam spin s reality (Some (psi, phi))
  = (S <- c_fwd O (if reality then nd_real f_scal else f_scal) Ls spin reality ix ;;
     Ts <- mapM (fun j => fj <- lrd f_wav (j - J_min) ;; c_wfwd O fj (Lj j) (Nj j) (L0 j) s reality)
                (zrange J_min (J + 1)) ;;
     c_inv O (syn psi phi Ts S) L spin reality ix).
Proof.
  intros HJJ Es HP Hphi HS HT. unfold ssht_synthesis. rewrite Es, EJ. cbn [bind].
  rewrite scal_bandlimit_ok by apply lam0. cbn [bind]. apply bind_ext. intros S ES.
  rewrite (loop_out (fun j => fj <- lrd f_wav (j - J_min) ;; c_wfwd O fj (Lj j) (Nj j) (L0 j) s reality)).
  - apply bind_ext. intros Ts ETs. destruct (mapM_inv _ _ _ ETs) as [Hl Hn].
    rewrite zrange_length in Hl.
    rewrite c_sum_ok; auto. intros j a Hj Ea.
    specialize (Hn (Z.to_nat (j - J_min)) j). rewrite nth_error_zrange in Hn by lia.
    destruct Hn as (y & Hy & Hy2); [f_equal; lia|].
    unfold lrd in Ea. rewrite idx_ok in Ea by lia. cbn [bind] in Ea. rewrite Hy2 in Ea.
    apply Ok_inj in Ea. subst a. apply bind_inv in Hy as (fj & F1 & F2). eauto.
  - lia.
  - intros j fw Hj. rewrite LN_j_ok by apply lam0. cbn [bind]. now rewrite bind_assoc.
Qed.
End Jx.
