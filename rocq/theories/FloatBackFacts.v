(** * Closed forms of the binary64 torch and SSHT transforms and of flm_to_analysis *)

From Coq Require Import ZArith Reals List Bool Lia Lra.
From Coquelicot Require Import Complex.
From Flocq Require Import Core IEEE754.BinarySingleNaN.
From Verif Require Import Py PyFacts ModelSamples SamplesFacts ModelFilters ModelTransforms Spec DirectionFacts DirFilterFacts TransformsFacts BackendFacts.
From Verif Require Import ModelFloat ModelFloatDir ModelFloatTrans ModelFloatJax ModelFloatBack SpecFpDir SpecFpTrans SpecFpJax SpecFpBack
  FloatDirFacts FloatDirProps FloatTransFacts FloatTransErr FloatTransClosed FloatJaxFacts.
From Verif Require Import FloatFacts.
Import ListNotations.
Open Scope Z_scope.

(** the torch entry points in the place of the precompute ones *)
Definition as_jax (O : back64) : jax64 := Jax64 (fun _ _ _ _ _ _ => Err TypeError) (fun _ _ _ _ _ _ => Err TypeError)
  (fun _ _ _ _ _ _ _ _ => Err TypeError) (fun _ _ _ _ _ _ _ _ => Err TypeError) (tf64 O) (ti64 O) (twf64 O) (twi64 O).
Lemma torch_as O : torch_lib O = pre_lib (as_jax O).
Proof. reflexivity. Qed.
Lemma torch_sy_as fpow fsum O J w sc L N J_min lam spin s nside reality fl p :
  torch_synthesis_fp fpow fsum O J w sc L N J_min lam spin s nside reality fl p
  = pre_synthesis_fp fpow fsum (as_jax O) J w sc L N J_min lam spin s nside reality fl p.
Proof. reflexivity. Qed.
Lemma scheme_ix s : ssht_scheme s -> ssht_sampling s = Ok (scheme s).
Proof. destruct s; intros H; try destruct H; reflexivity. Qed.

Section Tr.
Variables (fpow : f64 -> Z -> f64) (fsum : Z -> Z -> list f64 -> f64).
Variables (L N J_min J : Z) (lam : f64) (Lj Nj L0 : Z -> Z) (Ls : Z).
Hypothesis HL : 1 <= L.
Hypothesis HN : 1 <= N.
Hypothesis HJ : 0 <= J_min <= J.
Hypothesis Esz : forall j, J_min <= j <= J -> LN_j_fp fpow L j N lam true = Ok (Lj j, Nj j, L0 j).
Hypothesis Hsz : forall j, J_min <= j <= J -> 0 <= L0 j <= Lj j /\ 1 <= Lj j <= L /\ 1 <= Nj j <= L.

Notation fzero := (fzero Lj Nj).
Notation wj := (wj L Lj Nj L0).
Notation rk := (rk Lj Nj L0).
Notation wk := (wk Lj Nj).
Notation syn := (syn64 fsum L J_min J Lj Nj L0 Ls).

Lemma flmt64_ok : construct_flmn_torch_fp fpow L N J_min J lam true = Ok (map fzero (zrange J_min (J + 1))).
Proof. exact (flmn64_ok fpow L N J_min J lam Lj Nj L0 HJ Esz Hsz). Qed.

(** ** flm_to_analysis *)
Section Flm.
Variables (psi : arr3 c64) (flm : arr2 c64) (J0 : Z) (J_max : option Z).
Hypothesis P0 : J + 1 <= dim0 psi.
Hypothesis P1 : dim1 psi = L.
Hypothesis P2 : dim2 psi = 2 * L - 1.
Hypothesis F1 : rows flm = L.
Hypothesis F2 : cols flm = 2 * L - 1.
Hypothesis HJm : pick_J64 J0 J_max = J.

Lemma jfl64 O s nside reality p q :
  ((p = None /\ generate_wigner_precomputes_fp fpow J0 L N J_min lam s nside false reality = Ok q) \/ p = Some q) ->
  (forall j, J_min <= j <= J -> lrd q (j - J_min) = Ok (rk s nside false reality j)) ->
  jax_flm_to_analysis_fp fpow O J0 flm L N J_min J_max lam s nside reality (Some psi) p
  = mapM (fun j => winv64 (jax_lib O) (wj psi flm j) (Lj j) (Nj j) (L0 j) s reality nside) (zrange J_min (J + 1)).
Proof.
  intros Hp Hq. unfold jax_flm_to_analysis_fp.
  assert ((match p with None => generate_wigner_precomputes_fp fpow J0 L N J_min lam s nside false reality | Some p => Ok p end) = Ok q) as ->
    by (destruct Hp as [[-> E]| ->]; auto). cbn [bind]. cbv zeta. rewrite HJm. cbn [need bind].
  rewrite (wpsi64_ok L L) by lia. cbn [bind]. rewrite (flmn64_ok fpow L N J_min J lam Lj Nj L0 HJ Esz Hsz). cbn [bind].
  rewrite (loop_append fzero (wj psi flm) (fun j => winv64 (jax_lib O) (wj psi flm j) (Lj j) (Nj j) (L0 j) s reality nside)); [|lia|].
  - rewrite bind_assoc. destruct (mapM _ _); reflexivity.
  - intros j l fw Hj Hl. rewrite Esz by lia. cbn [bind]. rewrite Hl. cbn [bind].
    destruct (Hsz j) as (? & ? & ?); [lia|].
    rewrite islice64_ok by (unfold wpsi64; cbn [dim0 dim1 dim2 mk3]; lia). cbn [bind].
    rewrite einsum_an64 by lia. cbn [bind]. unfold FloatTransFacts.fzero. rewrite upd_anj by lia. cbn [bind].
    fold (wj psi flm j). apply bind_ext. intros l' _. rewrite Hq by lia. reflexivity.
Qed.

Lemma pfl64 O s nside reality p0 p1 q :
  (forall j, J_min <= j <= J -> lrd q (j - J_min + (if j <? J then 0 else -1)) = Ok (wk s nside false reality j)) ->
  pre_flm_to_analysis_fp fpow O J0 flm L N J_min J_max lam s nside reality (Some psi) (Some (p0, p1, q))
  = mapM (fun j => winv64 (pre_lib O) (wj psi flm j) (Lj j) (Nj j) (L0 j) s reality nside) (zrange J_min (J + 1)).
Proof.
  intros Hq. unfold pre_flm_to_analysis_fp. cbv zeta. rewrite HJm. cbn [need bind].
  rewrite (wpsi64_ok L L) by lia. cbn [bind]. rewrite (flmn64_ok fpow L N J_min J lam Lj Nj L0 HJ Esz Hsz). cbn [bind].
  rewrite (loop_append fzero (wj psi flm) (fun j => winv64 (pre_lib O) (wj psi flm j) (Lj j) (Nj j) (L0 j) s reality nside)); [|lia|].
  - rewrite bind_assoc. destruct (mapM _ _); reflexivity.
  - intros j l fw Hj Hl. rewrite Esz by lia. cbn [bind]. rewrite Hl. cbn [bind].
    destruct (Hsz j) as (? & ? & ?); [lia|].
    rewrite islice64_ok by (unfold wpsi64; cbn [dim0 dim1 dim2 mk3]; lia). cbn [bind].
    rewrite einsum_an64 by lia. cbn [bind]. unfold FloatTransFacts.fzero. rewrite upd_anj by lia. cbn [bind].
    fold (wj psi flm j). apply bind_ext. intros l' _. rewrite Hq by lia. reflexivity.
Qed.

Lemma tfl64 O s nside reality p0 p1 q :
  (forall j, J_min <= j <= J -> lrd q (j - J_min + (if j <? J then 0 else -1)) = Ok (wk s nside false reality j)) ->
  torch_flm_to_analysis_fp fpow O J0 flm L N J_min J_max lam s nside reality (Some psi) (Some (p0, p1, q))
  = (w <- mapM (fun j => winv64 (torch_lib O) (wj psi flm j) (Lj j) (Nj j) (L0 j) s reality nside) (zrange J_min (J + 1)) ;; Ok (map Some w)).
Proof.
  intros Hq. unfold torch_flm_to_analysis_fp. cbv zeta. rewrite HJm. rewrite flmt64_ok. cbn [need bind].
  rewrite (wpsi64_ok L L) by lia. cbn [bind].
  rewrite (loop_lwr fzero (wj psi flm) _ (fun j => winv64 (torch_lib O) (wj psi flm j) (Lj j) (Nj j) (L0 j) s reality nside) Some); [|lia|].
  - rewrite bind_assoc. destruct (mapM _ _); reflexivity.
  - intros j l fw Hj Hl _. rewrite Esz by lia. cbn [bind]. rewrite Hl. cbn [bind].
    destruct (Hsz j) as (? & ? & ?); [lia|].
    rewrite islice64_ok by (unfold wpsi64; cbn [dim0 dim1 dim2 mk3]; lia). cbn [bind].
    rewrite einsum_an64 by lia. cbn [bind]. unfold FloatTransFacts.fzero. rewrite upd_anj by lia. cbn [bind].
    fold (wj psi flm j). apply bind_ext. intros l' _. rewrite Hq by lia. reflexivity.
Qed.

Lemma c_wav64 : c_apply_wavelets_fp fpow flm L N J_min J lam (Some psi) = Ok (map (wj psi flm) (zrange J_min (J + 1))).
Proof.
  unfold c_apply_wavelets_fp. rewrite (flmn64_ok fpow L N J_min J lam Lj Nj L0 HJ Esz Hsz). cbn [bind need].
  rewrite (wpsi64_ok L L) by lia. cbn [bind]. apply for_lwr; [lia|]. intros j l Hj Hl. rewrite Esz by lia. cbn [bind]. rewrite Hl. cbn [bind].
  destruct (Hsz j) as (? & ? & ?); [lia|].
  rewrite islice64_ok by (unfold wpsi64; cbn [dim0 dim1 dim2 mk3]; lia). cbn [bind].
  rewrite einsum_an64 by lia. cbn [bind]. unfold FloatTransFacts.fzero. rewrite upd_anj by lia. reflexivity.
Qed.
Lemma c_winv64 O s reality nside :
  for_ (zrange J_min (J + 1)) [] (fun j f_wav =>
    ' (Lj, Nj, L0j) <- LN_j_fp fpow L j N lam true ;;
    a <- lrd (map (wj psi flm) (zrange J_min (J + 1))) (j - J_min) ;;
    y <- cwi64 O a Lj Nj L0j s reality ;;
    Ok (f_wav ++ [y]))
  = mapM (fun j => winv64 (ssht_lib O) (wj psi flm j) (Lj j) (Nj j) (L0 j) s reality nside) (zrange J_min (J + 1)).
Proof.
  apply loop_out; [lia|]. intros j fw Hj. rewrite Esz by lia. cbn [bind]. rewrite lrd_map by lia. reflexivity.
Qed.
Lemma cfl64 O s nside reality :
  ssht_flm_to_analysis_fp fpow O J0 flm L N J_min J_max lam s reality (Some psi)
  = mapM (fun j => winv64 (ssht_lib O) (wj psi flm j) (Lj j) (Nj j) (L0 j) s reality nside) (zrange J_min (J + 1)).
Proof.
  unfold ssht_flm_to_analysis_fp. cbv zeta. rewrite HJm, c_wav64. cbn [bind]. apply c_winv64.
Qed.
End Flm.

(** ** analysis and synthesis *)
Hypothesis ELs : scal_bandlimit_fp fpow L J_min lam true = Ok Ls.
Hypothesis HLs : 1 <= Ls <= L.

Lemma tan64 O f spin s nside reality psi phi : J_min < J -> Lj (J - 1) = Lj J -> Nj (J - 1) = Nj J ->
  dim0 psi = J + 1 -> dim1 psi = L -> dim2 psi = 2 * L - 1 -> len1 phi = L ->
  (forall flm, fwd64 (torch_lib O) f L spin s nside reality = Ok flm -> rows flm = L /\ cols flm = 2 * L - 1) ->
  torch_analysis_fp fpow O J f L N J_min lam spin s nside reality (Some (psi, phi))
    (Some (Some (SKern L 0 reality s nside true), Some (SKern Ls 0 reality s nside false), map (wk s nside false reality) (zrange J_min J)))
  = (flm <- fwd64 (torch_lib O) f L spin s nside reality ;;
     w <- mapM (fun j => winv64 (torch_lib O) (wj psi flm j) (Lj j) (Nj j) (L0 j) s reality nside) (zrange J_min (J + 1)) ;;
     sc <- inv64 (torch_lib O) (sca64 L phi flm Ls) Ls spin s nside reality ;;
     Ok (map Some w, sc)).
Proof.
  intros HJ1 HJ2 HJ3 P0 P1 P2 Hphi Hf. unfold torch_analysis_fp.
  rewrite ELs. cbn [bind]. rewrite flmt64_ok. cbn [bind need fst snd]. rewrite (wpsi64_ok L L) by lia. cbn [bind].
  apply bind_ext. intros flm Ef. destruct (Hf flm Ef) as [F1 F2].
  rewrite (loop_lwr fzero (wj psi flm) _ (fun j => winv64 (torch_lib O) (wj psi flm j) (Lj j) (Nj j) (L0 j) s reality nside) Some); [|lia|].
  - rewrite bind_assoc. apply bind_ext. intros w _. cbn [bind].
    rewrite (phi64_ok phi L) by auto. cbn [bind]. rewrite scal_an64 by auto. cbn [bind]. reflexivity.
  - intros j l fw Hj Hl _. rewrite Esz by lia. cbn [bind]. rewrite Hl. cbn [bind].
    destruct (Hsz j) as (? & ? & ?); [lia|].
    rewrite islice64_ok by (unfold wpsi64; cbn [dim0 dim1 dim2 mk3]; lia). cbn [bind].
    rewrite einsum_an64 by lia. cbn [bind]. unfold FloatTransFacts.fzero. rewrite upd_anj by lia. cbn [bind].
    fold (wj psi flm j). apply bind_ext. intros l' _. rewrite (wk_at J_min J Lj Nj) by (auto; lia). reflexivity.
Qed.

Lemma can64 O f spin s nside (reality : bool) psi phi : ssht_scheme s -> (reality = true -> nd_real64 f = f) ->
  dim0 psi = J + 1 -> dim1 psi = L -> dim2 psi = 2 * L - 1 -> len1 phi = L ->
  (forall flm, fwd64 (ssht_lib O) f L spin s nside reality = Ok flm -> rows flm = L /\ cols flm = 2 * L - 1) ->
  ssht_analysis_fp fpow O J f L N J_min lam spin s reality (Some (psi, phi))
  = (flm <- fwd64 (ssht_lib O) f L spin s nside reality ;;
     w <- mapM (fun j => winv64 (ssht_lib O) (wj psi flm j) (Lj j) (Nj j) (L0 j) s reality nside) (zrange J_min (J + 1)) ;;
     sc <- inv64 (ssht_lib O) (sca64 L phi flm Ls) Ls spin s nside reality ;;
     Ok (w, sc)).
Proof.
  intros Hs Hr P0 P1 P2 Hphi Hf. unfold ssht_analysis_fp. rewrite (scheme_ix s Hs). cbn [bind]. rewrite ELs. cbn [bind need fst snd].
  cbn [ssht_lib fwd64] in *. assert ((if reality then nd_real64 f else f) = f) as Ef by (destruct reality; auto). rewrite Ef in *.
  apply bind_ext. intros flm E. destruct (Hf flm E) as [F1 F2]. rewrite (c_wav64 psi flm) by lia. cbn [bind].
  unfold c_apply_scaling_fp. rewrite ELs. cbn [bind need]. rewrite (phi64_ok phi L) by auto. cbn [bind]. rewrite scal_an64 by auto. cbn [bind].
  rewrite (c_winv64 psi flm O s reality nside). reflexivity.
Qed.

Section Syn.
Variables (psi : arr3 c64) (phi : arr1 f64).
Hypothesis P0 : dim0 psi = J + 1.
Hypothesis P1 : dim1 psi = L.
Hypothesis P2 : dim2 psi = 2 * L - 1.
Hypothesis P3 : len1 phi = L.
Hypothesis HL2 : 2 <= L.

Lemma c_sum64 W S : rows S = Ls -> cols S = 2 * Ls - 1 -> length W = Z.to_nat (J + 1 - J_min) ->
  (forall j a, J_min <= j <= J -> lrd W (j - J_min) = Ok a -> dim0 a = 2 * Nj j - 1 /\ dim1 a = Lj j /\ dim2 a = 2 * Lj j - 1) ->
  c_sum_fp fpow fsum W S L N J_min J lam (Some (psi, phi)) = Ok (syn psi phi W S).
Proof.
  intros S1 S2 HWl HW. unfold c_sum_fp. rewrite ELs. cbn [bind]. rewrite zeros2_ok by lia. cbn [bind need fst snd].
  rewrite (loop_fold L (2 * L - 1) nd30 _ (fun j T => step64 L (Lj j) (Nj j) (L0 j) j fsum psi T) (fun j => lrd W (j - J_min))); [|lia| |].
  - assert (Em : mapM (fun j => lrd W (j - J_min)) (zrange J_min (J + 1)) = Ok W).
    { rewrite (mapM_ok _ (fun j => Tnth nd30 J_min W j)).
      - f_equal. apply list_ext.
        + rewrite map_length, zrange_length. auto.
        + rewrite map_length, zrange_length. intros i Hi. rewrite nth_error_map.
          rewrite <- (Nat2Z.id i) at 1. rewrite nth_error_zrange by lia. cbn [option_map].
          unfold Tnth. replace (Z.to_nat (J_min + Z.of_nat i - J_min)) with i by lia.
          symmetry. apply nth_error_nth'. lia.
      - intros j Hj. apply In_zrange in Hj. unfold lrd. rewrite idx_ok by lia. cbn [bind].
        unfold Tnth. rewrite (nth_error_nth' W nd30) by lia. reflexivity. }
    rewrite Em. cbn [bind]. rewrite (phi64_ok phi L) by auto. cbn [bind]. rewrite scal_sy64 by lia. cbn [bind].
    apply scal_up64; auto.
  - intros j g T Hj E. rewrite Esz by lia. cbn [bind]. destruct (HW j T ltac:(lia) E) as (T0 & T1 & T2). destruct (Hsz j) as (? & ? & ?); [lia|].
    rewrite islice64_ok by lia. cbn [bind]. rewrite E. cbn [bind]. rewrite einsum_sy64 by lia. cbn [bind]. apply upd_sy64; lia.
  - intros j g e Hj E. rewrite Esz by lia. cbn [bind]. destruct (Hsz j) as (? & ? & ?); [lia|]. rewrite islice64_ok by lia. cbn [bind]. rewrite E. reflexivity.
Qed.

Lemma csy64 O f_wav f_scal spin s nside reality : ssht_scheme s ->
  (forall S, fwd64 (ssht_lib O) f_scal Ls spin s nside reality = Ok S -> rows S = Ls /\ cols S = 2 * Ls - 1) ->
  (forall j fj T, J_min <= j <= J -> lrd f_wav (j - J_min) = Ok fj ->
     wfwd64 (ssht_lib O) fj (Lj j) (Nj j) (L0 j) s reality nside = Ok T ->
     dim0 T = 2 * Nj j - 1 /\ dim1 T = Lj j /\ dim2 T = 2 * Lj j - 1) ->
  ssht_synthesis_fp fpow fsum O J f_wav f_scal L N J_min lam spin s reality (Some (psi, phi))
  = (S <- fwd64 (ssht_lib O) f_scal Ls spin s nside reality ;;
     Ts <- mapM (fun j => fj <- lrd f_wav (j - J_min) ;; wfwd64 (ssht_lib O) fj (Lj j) (Nj j) (L0 j) s reality nside) (zrange J_min (J + 1)) ;;
     inv64 (ssht_lib O) (syn psi phi Ts S) L spin s nside reality).
Proof.
  intros Hs HS HT. unfold ssht_synthesis_fp. rewrite (scheme_ix s Hs). cbn [bind]. rewrite ELs. cbn [bind].
  cbn [ssht_lib fwd64] in *. apply bind_ext. intros S ES. destruct (HS S ES) as [S1 S2].
  rewrite (loop_out (fun j => fj <- lrd f_wav (j - J_min) ;; wfwd64 (ssht_lib O) fj (Lj j) (Nj j) (L0 j) s reality nside)).
  - apply bind_ext. intros Ts ETs. destruct (mapM_inv _ _ _ ETs) as [Hl Hn]. rewrite zrange_length in Hl.
    rewrite c_sum64; auto.
    + cbn [bind inv64 ssht_lib]. replace (L =? 1) with false by zb. reflexivity.
    + intros j a Hj Ea. specialize (Hn (Z.to_nat (j - J_min)) j). rewrite nth_error_zrange in Hn by lia.
      destruct Hn as (y & Hy & Hy2); [f_equal; lia|].
      unfold lrd in Ea. rewrite idx_ok in Ea by lia. cbn [bind] in Ea. rewrite Hy2 in Ea.
      apply Ok_inj in Ea. subst a. apply bind_inv in Hy as (fj & G1 & G2). eauto.
  - lia.
  - intros j fw Hj. rewrite Esz by lia. cbn [bind]. now rewrite bind_assoc.
Qed.
End Syn.
End Tr.
