(** Statements and proofs for PropertiesKernel.v *)

From Coq Require Import ZArith Reals List Bool Lia Lra FunctionalExtensionality.
From Coquelicot Require Import Rcomplements Complex.
From Verif Require Import Py PyFacts ModelSamples SamplesFacts ModelFilters ModelTransforms Spec SpecTransforms
  FiltersFacts AxisymFacts DirectionFacts DirFilterFacts FiltersProps TransformsFacts BackendFacts LoopFacts
  ReconFacts RoundFacts Demo TransformsProps FrameProps.
Import ListNotations.
Open Scope Z_scope.

(*T Precomputed kernels, flm_to_analysis and edge cases of the backends *)
(*! From Coq Require Import ZArith Reals List Bool. *)
(*! From Coquelicot Require Import Complex. *)
(*! From Verif Require Import Py ModelSamples ModelFilters ModelTransforms Spec SpecTransforms Demo. *)

(*% ** C32: flm_to_analysis is the wavelet part of analysis *)

(*@ C32_jax *)
Lemma flm_jax : forall O f flm L J_min J lam spin s nside reality phi,
  (0 < lam)%R -> j_max L lam = Ok J -> j_fwd O f L spin nside s reality = Ok flm ->
  exists scal : res nd, forall N J_max psi precomps, J_max = None \/ J_max = Some J ->
    jax_analysis O f L N J_min lam spin s nside reality (Some (psi, phi)) precomps
    = (w <- jax_flm_to_analysis O flm L N J_min J_max lam s nside reality (Some psi) precomps ;;
       sc <- scal ;; Ok (w, sc)).
Proof.
  intros O f flm L J_min J lam spin s nside reality phi Hl EJ Ef.
  set (Ls := Ls_of L J_min lam true).
  exists (phi4 <- mul1 (slice1 phi (upto Ls)) (sca_weights Ls) ;;
    temp <- einsum_lm_l_lm (slice2 flm (upto Ls) (between (L - Ls) (L - 1 + Ls))) phi4 ;;
    (if Ls =? 1 then Ok (nd_of2 (map2 (fun x => Cmult x (RtoC (sqrt (1 / (4 * PI))))) temp))
     else j_inv O temp Ls spin nside s reality)).
  intros N J_max psi precomps HJm.
  unfold jax_analysis, jax_flm_to_analysis. rewrite EJ, Ef, scal_bandlimit_ok by assumption.
  replace (pick_J L lam J_max) with (@Ok Z J) by (destruct HJm as [-> | ->]; unfold pick_J; auto).
  cbn [bind need fst snd]. fold Ls.
  match goal with |- bind ?p _ = _ => destruct p as [p0|]; cbn [bind]; [|reflexivity] end.
  destruct (einsum_ijk_j_ijk _ _) as [wl|]; cbn [bind]; [|reflexivity].
  destruct (construct_flmn_jax _ _ _ _ _ _) as [z|]; cbn [bind]; [|reflexivity].
  match goal with |- bind ?p _ = _ => destruct p as [[l w]|]; cbn [bind]; [|reflexivity] end.
  rewrite !bind_assoc. apply bind_ext. intros q _. rewrite bind_assoc. reflexivity.
Qed.

(*@ C32_precompute *)
Lemma flm_pre : forall O f flm L J_min J lam spin s nside reality phi k0 p1,
  (0 < lam)%R -> j_max L lam = Ok J -> p_fwd O f k0 L s reality spin nside = Ok flm ->
  exists scal : res nd, forall N J_max psi p2, J_max = None \/ J_max = Some J ->
    pre_analysis O f L N J_min lam spin s nside reality (Some (psi, phi)) (Some (Some k0, p1, p2))
    = (w <- pre_flm_to_analysis O flm L N J_min J_max lam s nside reality (Some psi) (Some (Some k0, p1, p2)) true ;;
       sc <- scal ;; Ok (w, sc)).
Proof.
  intros O f flm L J_min J lam spin s nside reality phi k0 p1 Hl EJ Ef.
  set (Ls := Ls_of L J_min lam true).
  exists (phi4 <- mul1 (slice1 phi (upto Ls)) (sca_weights Ls) ;;
    temp <- einsum_lm_l_lm (slice2 flm (upto Ls) (between (L - Ls) (L - 1 + Ls))) phi4 ;;
    (if Ls =? 1 then Ok (nd_of2 (map2 (fun x => Cmult x (RtoC (sqrt (1 / (4 * PI))))) temp))
     else k1 <- need p1 ;; p_inv O temp k1 Ls s reality spin nside)).
  intros N J_max psi p2 HJm.
  unfold pre_analysis, pre_flm_to_analysis. rewrite EJ. cbn [bind need fst snd].
  rewrite Ef, scal_bandlimit_ok by assumption.
  replace (pick_J L lam J_max) with (@Ok Z J) by (destruct HJm as [-> | ->]; unfold pick_J; auto).
  cbn [bind]. fold Ls.
  destruct (einsum_ijk_j_ijk _ _) as [wl|]; cbn [bind]; [|reflexivity].
  destruct (construct_flmn_jax _ _ _ _ _ _) as [z|]; cbn [bind]; [|reflexivity].
  match goal with |- bind ?p _ = _ => destruct p as [[l w]|]; cbn [bind]; [|reflexivity] end.
  rewrite !bind_assoc. apply bind_ext. intros q _. rewrite bind_assoc. reflexivity.
Qed.

(*@ C32_torch *)
Lemma flm_torch : forall O f flm L J_min J lam spin s nside reality phi k0 p1,
  (0 < lam)%R -> j_max L lam = Ok J -> t_fwd O f k0 L s reality spin nside = Ok flm ->
  exists scal : res nd, forall N J_max psi p2, J_max = None \/ J_max = Some J ->
    torch_analysis O f L N J_min lam spin s nside reality (Some (psi, phi)) (Some (Some k0, p1, p2))
    = (w <- torch_flm_to_analysis O flm L N J_min J_max lam s nside reality (Some psi) (Some (Some k0, p1, p2)) ;;
       sc <- scal ;; Ok (w, sc)).
Proof.
  intros O f flm L J_min J lam spin s nside reality phi k0 p1 Hl EJ Ef.
  set (Ls := Ls_of L J_min lam true).
  exists (phi4 <- mul1 (slice1 phi (upto Ls)) (sca_weights Ls) ;;
    temp <- einsum_lm_l_lm (slice2 flm (upto Ls) (between (L - Ls) (L - 1 + Ls))) phi4 ;;
    (if Ls =? 1 then Ok (nd_of2 (map2 (fun x => Cmult x (RtoC (sqrt (1 / (4 * PI))))) temp))
     else k1 <- need p1 ;; t_inv O temp k1 Ls s reality spin nside)).
  intros N J_max psi p2 HJm.
  unfold torch_analysis, torch_flm_to_analysis. rewrite EJ. cbn [bind need fst snd].
  rewrite Ef, scal_bandlimit_ok by assumption.
  replace (pick_J L lam J_max) with (@Ok Z J) by (destruct HJm as [-> | ->]; unfold pick_J; auto).
  cbn [bind]. fold Ls.
  destruct (construct_flmn_torch _ _ _ _ _ _) as [z|]; cbn [bind]; [|reflexivity].
  destruct (construct_f_torch _ _ _ _) as [z0|]; cbn [bind]; [|reflexivity].
  destruct (einsum_ijk_j_ijk _ _) as [wl|]; cbn [bind]; [|reflexivity].
  match goal with |- bind ?p _ = _ => destruct p as [[l w]|]; cbn [bind]; [|reflexivity] end.
  rewrite !bind_assoc. apply bind_ext. intros q _. rewrite bind_assoc. reflexivity.
Qed.

(*@ C32_c *)
Lemma flm_c : forall O f flm L J_min J lam spin s ix reality phi,
  (0 < lam)%R -> j_max L lam = Ok J -> ssht_index s ix -> c_fwd O f L spin reality ix = Ok flm ->
  exists scal : res nd, forall N J_max psi, J_max = None \/ J_max = Some J ->
    match ssht_flm_to_analysis O flm L N J_min J_max lam s reality (Some psi), scal with
    | Ok w, Ok sc => ssht_analysis O f L N J_min lam spin s reality (Some (psi, phi)) = Ok (w, sc)
    | _, _ => exists e, ssht_analysis O f L N J_min lam spin s reality (Some (psi, phi)) = Err e
    end.
Proof.
  intros O f flm L J_min J lam spin s ix reality phi Hl EJ Hix Ef.
  set (Ls := Ls_of L J_min lam true).
  exists (flm_scal <- c_apply_scaling flm L J_min lam (Some phi) ;;
    if Ls =? 1 then Ok (nd_of2 (map2 (fun x => Cmult x (RtoC (sqrt (1 / (4 * PI))))) flm_scal))
    else c_inv O flm_scal Ls spin reality ix).
  intros N J_max psi HJm. unfold ssht_analysis, ssht_flm_to_analysis.
  replace (ssht_sampling s) with (@Ok Z ix) by (destruct Hix as [[-> ->]|[[-> ->]|[[-> ->]|[-> ->]]]]; reflexivity).
  rewrite EJ. cbn [bind need fst snd]. rewrite Ef, scal_bandlimit_ok by assumption. fold Ls.
  replace (pick_J L lam J_max) with (@Ok Z J) by (destruct HJm as [-> | ->]; unfold pick_J; auto).
  cbn [bind]. destruct (c_apply_wavelets _ _ _ _ _ _ _) as [z|e]; cbn [bind]; [|eauto].
  destruct (c_apply_scaling _ _ _ _ _) as [y|e]; cbn [bind].
  - match goal with |- context [for_ ?a ?b ?c] => destruct (for_ a b c) as [w|e]; cbn [bind]; [|eauto] end.
    match goal with |- context [if Ls =? 1 then ?a else ?b] => destruct (if Ls =? 1 then a else b); cbn [bind]; eauto end.
  - match goal with |- match ?x with _ => _ end => destruct x; eauto end.
Qed.

(*% With J_max below j_max the same scales are computed and the rest is left out. *)

Lemma mapM_length {A B} (f : A -> res B) l : forall ys, mapM f l = Ok ys -> length ys = length l.
Proof.
  induction l as [|x l IH]; intros ys E; cbn [mapM] in E; [injection E as <-; reflexivity|].
  destruct (f x); [|discriminate]. cbn [bind] in E. destruct (mapM f l); [|discriminate]. injection E as <-. cbn. now rewrite (IH _ eq_refl).
Qed.
Lemma mapM_prefix {B} (f g : Z -> res B) lo mid hi ys : lo <= mid <= hi ->
  (forall j, lo <= j < mid -> f j = g j) ->
  mapM f (zrange lo hi) = Ok ys -> mapM g (zrange lo mid) = Ok (firstn (Z.to_nat (mid - lo)) ys).
Proof.
  intros H HE E. rewrite (zrange_split lo mid hi) in E by lia. rewrite mapM_app in E.
  destruct (mapM f (zrange lo mid)) as [y1|] eqn:E1; [|discriminate]. cbn [bind] in E.
  destruct (mapM f (zrange mid hi)) as [y2|] eqn:E2; [|discriminate]. injection E as <-.
  assert (Hn : length y1 = Z.to_nat (mid - lo)) by (rewrite (mapM_length _ _ _ E1), zrange_length; reflexivity).
  rewrite firstn_app, <- Hn, firstn_all, Nat.sub_diag, firstn_O, app_nil_r, <- E1.
  apply mapM_ext. intros j Hj. apply In_zrange in Hj. symmetry. apply HE. lia.
Qed.

(*@ C32_jax_truncated *)
Lemma flm_jax_trunc : forall O flm L N lam J_min J J_max s nside reality psi precomps w,
  1 <= L -> 1 <= N <= L -> (1 < lam)%R -> j_max L lam = Ok J -> 0 <= J_min < J -> J_min <= J_max <= J ->
  shape3 psi = [J + 1; L; 2 * L - 1] -> shape2 flm = [L; 2 * L - 1] ->
  jax_flm_to_analysis O flm L N J_min None lam s nside reality (Some psi) precomps = Ok w ->
  length w = Z.to_nat (J - J_min + 1) /\
  jax_flm_to_analysis O flm L N J_min (Some J_max) lam s nside reality (Some psi) precomps
  = Ok (firstn (Z.to_nat (J_max - J_min + 1)) w).
Proof.
  intros O flm L N lam J_min J Jt s nside reality psi precomps w HL HN Hlam EJ HJ HJt HP HF E.
  assert (HP' : psi_sh L J psi) by (unfold shape3 in HP; injection HP as A B D; repeat split; auto).
  assert (HF' : flm_sh L flm) by (unfold shape2 in HF; injection HF as A B; repeat split; auto).
  assert (EN : forall p, jax_flm_to_analysis O flm L N J_min None lam s nside reality (Some psi) (Some p)
                         = jax_flm_to_analysis O flm L N J_min (Some J) lam s nside reality (Some psi) (Some p))
    by (intros p; unfold jax_flm_to_analysis, pick_J; rewrite EJ; reflexivity).
  assert (HS : forall p, jax_flm_to_analysis O flm L N J_min None lam s nside reality (Some psi) (Some p) = Ok w ->
    length w = Z.to_nat (J - J_min + 1) /\
    jax_flm_to_analysis O flm L N J_min (Some Jt) lam s nside reality (Some psi) (Some p) = Ok (firstn (Z.to_nat (Jt - J_min + 1)) w)).
  { intros p Ep. rewrite EN in Ep. rewrite (jax_flm_ok L N J_min J lam) in Ep by (auto; lia). split.
    - rewrite (mapM_length _ _ _ Ep), zrange_length. f_equal. lia.
    - rewrite (jax_flm_ok L N J_min J lam) by (auto; lia).
      replace (Jt - J_min + 1) with (Jt + 1 - J_min) by lia. eapply mapM_prefix; [|reflexivity|exact Ep]. lia. }
  destruct precomps as [p|]; [now apply HS|].
  destruct (generate_wigner_precomputes L N J_min lam s nside false reality) as [p|e] eqn:G.
  - assert (Q : forall Jm, jax_flm_to_analysis O flm L N J_min Jm lam s nside reality (Some psi) None
                 = jax_flm_to_analysis O flm L N J_min Jm lam s nside reality (Some psi) (Some p))
      by (intros Jm; unfold jax_flm_to_analysis; rewrite G; reflexivity).
    rewrite Q in E |- *. now apply HS.
  - unfold jax_flm_to_analysis in E. rewrite G in E. discriminate.
Qed.

(*@ C32_precompute_truncated *)
Lemma flm_pre_trunc : forall O flm L N lam J_min J J_max s nside reality psi precomps w,
  1 <= L -> 1 <= N <= L -> (1 < lam)%R -> j_max L lam = Ok J -> 0 <= J_min < J -> J_min <= J_max < J ->
  shape3 psi = [J + 1; L; 2 * L - 1] -> shape2 flm = [L; 2 * L - 1] ->
  pre_flm_to_analysis O flm L N J_min None lam s nside reality (Some psi) precomps true = Ok w ->
  length w = Z.to_nat (J - J_min + 1) /\
  pre_flm_to_analysis O flm L N J_min (Some J_max) lam s nside reality (Some psi) precomps false
  = Ok (firstn (Z.to_nat (J_max - J_min + 1)) w).
Proof.
  intros O flm L N lam J_min J Jt s nside reality psi precomps w HL HN Hlam EJ HJ HJt HP HF E.
  assert (HP' : psi_sh L J psi) by (unfold shape3 in HP; injection HP as A B D; repeat split; auto).
  assert (HF' : flm_sh L flm) by (unfold shape2 in HF; injection HF as A B; repeat split; auto).
  assert (EN : pre_flm_to_analysis O flm L N J_min None lam s nside reality (Some psi) precomps true
             = pre_flm_to_analysis O flm L N J_min (Some J) lam s nside reality (Some psi) precomps true)
    by (unfold pre_flm_to_analysis, pick_J; rewrite EJ; reflexivity).
  rewrite EN in E. destruct precomps as [[[p0 p1] p]|]; [|discriminate]. rewrite (pre_flm_ok L N J_min J lam) in E by (auto; lia). split.
  - rewrite (mapM_length _ _ _ E), zrange_length. f_equal. lia.
  - rewrite (pre_flm_ok L N J_min J lam) by (auto; lia).
    replace (Jt - J_min + 1) with (Jt + 1 - J_min) by lia. eapply mapM_prefix; [| |exact E]; [lia|].
    intros j Hj. cbn beta. unfold shift. destruct (Z.ltb_spec j J); [reflexivity|lia].
Qed.

(*@ C32_c_truncated *)
Lemma flm_c_trunc : forall O flm L N lam J_min J J_max s reality psi w,
  1 <= L -> 1 <= N <= L -> (1 < lam)%R -> j_max L lam = Ok J -> 0 <= J_min < J -> J_min <= J_max <= J ->
  shape3 psi = [J + 1; L; 2 * L - 1] -> shape2 flm = [L; 2 * L - 1] ->
  ssht_flm_to_analysis O flm L N J_min None lam s reality (Some psi) = Ok w ->
  length w = Z.to_nat (J - J_min + 1) /\
  ssht_flm_to_analysis O flm L N J_min (Some J_max) lam s reality (Some psi)
  = Ok (firstn (Z.to_nat (J_max - J_min + 1)) w).
Proof.
  intros O flm L N lam J_min J Jt s reality psi w HL HN Hlam EJ HJ HJt HP HF E.
  assert (HP' : psi_sh L J psi) by (unfold shape3 in HP; injection HP as A B D; repeat split; auto).
  assert (HF' : flm_sh L flm) by (unfold shape2 in HF; injection HF as A B; repeat split; auto).
  assert (EN : ssht_flm_to_analysis O flm L N J_min None lam s reality (Some psi)
             = ssht_flm_to_analysis O flm L N J_min (Some J) lam s reality (Some psi))
    by (unfold ssht_flm_to_analysis, pick_J; rewrite EJ; reflexivity).
  rewrite EN in E. rewrite (ssht_flm_ok L N J_min J lam) in E by (auto; lia). split.
  - rewrite (mapM_length _ _ _ E), zrange_length. f_equal. lia.
  - rewrite (ssht_flm_ok L N J_min J lam) by (auto; lia).
    replace (Jt - J_min + 1) with (Jt + 1 - J_min) by lia. eapply mapM_prefix; [|reflexivity|exact E]. lia.
Qed.

(*@E C32_example *)
Lemma ex_c32 : exists psi phi f flm pa k0 p1 p2, filters_directional_vectorised 5 3 1 2 0 0 = Ok (psi, phi) /\ j_max 5 2 = Ok 3 /\
  j_fwd demo f 5 0 None MW true = Ok flm /\ generate_full_precomputes 5 3 1 2 MW None false true false = Ok pa /\
  pa = (Some k0, p1, p2) /\ p_fwd demo f k0 5 MW true 0 None = Ok flm /\ t_fwd demo f k0 5 MW true 0 None = Ok flm /\
  ssht_index MW 0 /\ c_fwd demo f 5 0 true 0 = Ok flm /\ flm = demo_flm 5.
Proof.
  destruct (v5 3 1 ltac:(lia) ltac:(lia)) as (psi & phi & E & T & _).
  destruct (proj1 (demo_exact_b 0 MW true ltac:(now left)) 5 ltac:(lia) (demo_flm 5) (demo_flm_ok 5 true)) as (f & Ef & _ & Eb).
  exists psi, phi, f, (demo_flm 5). do 4 eexists. demo_all.
Qed.

Lemma mapM_total {B} (f : Z -> res B) lo hi : (forall j, lo <= j < hi -> exists y, f j = Ok y) -> exists ys, mapM f (zrange lo hi) = Ok ys.
Proof.
  intros H. assert (H' : forall j, In j (zrange lo hi) -> exists y, f j = Ok y) by (intros j Hj; apply H; now apply In_zrange in Hj).
  clear H. induction (zrange lo hi) as [|x l IH]; [cbn; eauto|]. cbn [mapM].
  destruct (H' x (or_introl eq_refl)) as [y ->]. destruct IH as [ys ->]; [intros; apply H'; now right|]. cbn. eauto.
Qed.

(*@E C32_truncated_example *)
Lemma ex_c32_trunc : exists psi phi ks pa w w' w'', filters_directional_vectorised 5 3 1 2 0 0 = Ok (psi, phi) /\ j_max 5 2 = Ok 3 /\
  shape3 psi = [3 + 1; 5; 2 * 5 - 1] /\ shape2 (demo_flm 5) = [5; 2 * 5 - 1] /\
  generate_wigner_precomputes 5 3 1 2 MW None false true = Ok ks /\
  generate_full_precomputes 5 3 1 2 MW None false true false = Ok pa /\
  jax_flm_to_analysis demo (demo_flm 5) 5 3 1 None 2 MW None true (Some psi) (Some ks) = Ok w /\
  pre_flm_to_analysis demo (demo_flm 5) 5 3 1 None 2 MW None true (Some psi) (Some pa) true = Ok w' /\
  ssht_flm_to_analysis demo (demo_flm 5) 5 3 1 None 2 MW true (Some psi) = Ok w'' /\ length w = 3%nat.
Proof.
  destruct (v5 3 1 ltac:(lia) ltac:(lia)) as (psi & phi & E & T & S3 & S1).
  assert (EJ : j_max 5 2 = Ok 3) by demo_step.
  assert (Hl : (0 < 2)%R) by lra. assert (Hl' : (1 < 2)%R) by lra.
  assert (P : psi_sh 5 3 psi) by (unfold shape3 in S3; injection S3 as A B D; repeat split; auto).
  assert (F : flm_sh 5 (demo_flm 5)) by (split; reflexivity).
  pose proof (gen_wigner_ok 5 3 1 2 MW None false true 3 Hl EJ ltac:(lia)) as G1.
  pose proof (gen_full_ok 5 3 1 2 MW None false true false 3 Hl EJ ltac:(lia)) as G2.
  set (ks := map _ _) in G1. set (p2 := map _ _) in G2.
  assert (W1 : exists w, jax_flm_to_analysis demo (demo_flm 5) 5 3 1 (Some 3) 2 MW None true (Some psi) (Some ks) = Ok w).
  { rewrite (jax_flm_ok 5 3 1 3 2) by (auto; lia). apply mapM_total. intros j Hj.
    assert (X : exists x, lrd ks (j - 1) = Ok x) by (assert (j = 1 \/ j = 2 \/ j = 3) as [-> |[-> | ->]] by lia; eexists; reflexivity).
    destruct X as [x ->]. cbn. eauto. }
  assert (W2 : exists w, pre_flm_to_analysis demo (demo_flm 5) 5 3 1 (Some 3) 2 MW None true (Some psi)
     (Some (Some (SKern 5 0 true MW None (negb false)), Some (SKern (Ls_of 5 1 2 true) 0 true MW None false), p2)) true = Ok w).
  { rewrite (pre_flm_ok 5 3 1 3 2) by (auto; lia). apply mapM_total. intros j Hj.
    assert (X : exists x, lrd p2 (j - 1 + shift 3 j true) = Ok x) by (assert (j = 1 \/ j = 2 \/ j = 3) as [-> |[-> | ->]] by lia; eexists; reflexivity).
    destruct X as [x ->]. cbn. eauto. }
  assert (W3 : exists w, ssht_flm_to_analysis demo (demo_flm 5) 5 3 1 (Some 3) 2 MW true (Some psi) = Ok w).
  { rewrite (ssht_flm_ok 5 3 1 3 2) by (auto; lia). apply mapM_total. intros j Hj. cbn. eauto. }
  destruct W1 as [w W1], W2 as [w' W2], W3 as [w'' W3].
  exists psi, phi, ks. eexists. exists w, w', w''. split; [exact E|]. split; [exact EJ|]. split; [exact S3|]. split; [reflexivity|].
  split; [exact G1|]. split; [exact G2|].
  assert (V1 : jax_flm_to_analysis demo (demo_flm 5) 5 3 1 None 2 MW None true (Some psi) (Some ks) = Ok w)
    by (rewrite <- W1; unfold jax_flm_to_analysis, pick_J; rewrite EJ; reflexivity).
  split; [exact V1|]. split; [|split].
  - rewrite <- W2. unfold pre_flm_to_analysis, pick_J. rewrite EJ. reflexivity.
  - rewrite <- W3. unfold ssht_flm_to_analysis, pick_J. rewrite EJ. reflexivity.
  - eapply (flm_jax_trunc demo (demo_flm 5) 5 3 2 1 3 2) in V1; auto; lia.
Qed.

(*% ** C33: the kernels the transforms use.  Whatever the filters (of the documented shapes), every scale
      uses the kernel built for its own sizes and for the direction of the transform, and no kernel index
      is out of range.  The two spherical kernels have spin 0. *)

Section Kernels.
Variables (L N J_min J : Z) (lam : R).
Hypothesis HL : 1 <= L.
Hypothesis HN : 1 <= N <= L.
Hypothesis Hlam : (1 < lam)%R.
Hypothesis EJ : j_max L lam = Ok J.
Hypothesis HJ : 0 <= J_min < J.

Lemma one_pix a : rows a = 1 -> cols a = 1 -> one_pixel a = constant_field a.
Proof.
  intros H1 H2. unfold one_pixel, constant_field, nd_of2, map2. cbn [rows cols get2 mk2]. rewrite H1, H2. f_equal.
  apply functional_extensionality. intros ix. destruct ix as [|i [|j [|]]]; auto.
  destruct (Z.eqb_spec i 0); cbn [andb].
  - destruct (Z.eqb_spec j 0); subst; [reflexivity|]. cbn [get2 mk2].
    replace (inb 1 j) with false; [reflexivity|]. symmetry. apply not_true_iff_false. rewrite inb_true. lia.
  - cbn [get2 mk2]. replace (inb 1 i) with false; [reflexivity|]. symmetry. apply not_true_iff_false. rewrite inb_true. lia.
Qed.
Lemma sc_one phi flm n (x : res nd) :
  (if n =? 1 then Ok (one_pixel (scaling_coefs L phi flm n)) else x)
  = (if n =? 1 then Ok (constant_field (scaling_coefs L phi flm n)) else x).
Proof. destruct (Z.eqb_spec n 1) as [->|]; [|reflexivity]. now rewrite one_pix by reflexivity. Qed.
End Kernels.

Lemma jax_none O f L N J_min J lam spin s nside reality fl p : (0 < lam)%R -> j_max L lam = Ok J -> J_min <= J + 1 ->
  p = None \/ (exists ks, generate_wigner_precomputes L N J_min lam s nside false reality = Ok ks /\ p = Some ks) ->
  jax_analysis O f L N J_min lam spin s nside reality fl p
  = jax_analysis O f L N J_min lam spin s nside reality fl
      (Some (map (rkf L N lam s nside false reality) (zrange J_min (J + 1)))).
Proof.
  intros Hl EJ HJ H. assert (G := gen_wigner_ok L N J_min lam s nside false reality J Hl EJ HJ).
  destruct H as [->|(ks & E & ->)].
  - unfold jax_analysis. rewrite G. reflexivity.
  - rewrite G in E. apply Ok_inj in E. now subst.
Qed.
Lemma jax_none_sy O w sc L N J_min J lam spin s nside reality fl p : (0 < lam)%R -> j_max L lam = Ok J -> J_min <= J + 1 ->
  p = None \/ (exists ks, generate_wigner_precomputes L N J_min lam s nside true reality = Ok ks /\ p = Some ks) ->
  jax_synthesis O w sc L N J_min lam spin s nside reality fl p
  = jax_synthesis O w sc L N J_min lam spin s nside reality fl
      (Some (map (rkf L N lam s nside true reality) (zrange J_min (J + 1)))).
Proof.
  intros Hl EJ HJ H. assert (G := gen_wigner_ok L N J_min lam s nside true reality J Hl EJ HJ).
  destruct H as [->|(ks & E & ->)].
  - unfold jax_synthesis. rewrite G. reflexivity.
  - rewrite G in E. apply Ok_inj in E. now subst.
Qed.

(*@ C33_jax_analysis *)
Lemma k_jax_an : forall O f L N lam J_min J spin s nside reality psi phi sz Ls precomps,
  1 <= L -> 1 <= N <= L -> (1 < lam)%R -> j_max L lam = Ok J -> 0 <= J_min < J ->
  shape3 psi = [J + 1; L; 2 * L - 1] -> shape1 phi = [L] ->
  (forall j, LN_j L j N lam true = Ok (sz j)) -> scal_bandlimit L J_min lam true = Ok Ls ->
  precomps = None \/
    (exists ks, generate_wigner_precomputes L N J_min lam s nside false reality = Ok ks /\ precomps = Some ks) ->
  (forall flm, j_fwd O f L spin nside s reality = Ok flm -> shape2 flm = [L; 2 * L - 1]) ->
  jax_analysis O f L N J_min lam spin s nside reality (Some (psi, phi)) precomps
  = (flm <- j_fwd O f L spin nside s reality ;;
     w <- mapM (fun j => let '(Lj, Nj, L0j) := sz j in
            j_winv O (wcoefs L psi flm sz j) Lj Nj nside s reality (RKern Lj Nj s nside false reality L0j) L0j)
            (zrange J_min (J + 1)) ;;
     sc <- (if Ls =? 1 then Ok (constant_field (scaling_coefs L phi flm Ls))
            else j_inv O (scaling_coefs L phi flm Ls) Ls spin nside s reality) ;;
     Ok (w, sc)).
Proof.
  intros O f L N lam J_min J spin s nside reality psi phi sz Ls precomps HL HN Hlam EJ HJ Hpsi Hphi Hsz HLs Hp Hf.
  rewrite (sz_eq L N lam true sz ltac:(lra) Hsz), (Ls_eq L J_min lam true Ls ltac:(lra) HLs).
  rewrite (jax_none O f L N J_min J) by (auto; lra || lia).
  rewrite (jax_analysis_ok L N J_min J lam HL HN Hlam EJ ltac:(lia)); try lia.
  - apply bind_ext. intros flm Ef. rewrite sc_one.
    erewrite mapM_ext; [reflexivity|]. intros j Hj. apply In_zrange in Hj. rewrite lrd_map by lia. reflexivity.
  - now apply sh3.
  - now injection Hphi.
  - intros flm Ef. apply sh2. auto.
Qed.

(*@ C33_jax_synthesis *)
Lemma k_jax_sy : forall O f_wav f_scal L N lam J_min J spin s nside reality psi phi sz Ls precomps,
  1 <= L -> 1 <= N <= L -> (1 < lam)%R -> j_max L lam = Ok J -> 0 <= J_min < J ->
  shape3 psi = [J + 1; L; 2 * L - 1] -> shape1 phi = [L] ->
  (forall j, LN_j L j N lam true = Ok (sz j)) -> scal_bandlimit L J_min lam true = Ok Ls ->
  precomps = None \/
    (exists ks, generate_wigner_precomputes L N J_min lam s nside true reality = Ok ks /\ precomps = Some ks) ->
  (forall S, j_fwd O f_scal Ls spin nside s reality = Ok S -> shape2 S = [Ls; 2 * Ls - 1]) ->
  (forall f L N L0 a, j_wfwd O f L N nside s reality (RKern L N s nside true reality L0) L0 = Ok a ->
     shape3 a = [2 * N - 1; L; 2 * L - 1]) ->
  jax_synthesis O f_wav f_scal L N J_min lam spin s nside reality (Some (psi, phi)) precomps
  = (S <- j_fwd O f_scal Ls spin nside s reality ;;
     Ws <- mapM (fun j => let '(Lj, Nj, L0j) := sz j in
            fj <- lrd f_wav (j - J_min) ;;
            j_wfwd O fj Lj Nj nside s reality (RKern Lj Nj s nside true reality L0j) L0j)
            (zrange J_min (J + 1)) ;;
     j_inv O (synthesised L J_min J psi phi sz
                (fun j => nth (Z.to_nat (j - J_min)) Ws (mk3 0 0 0 (fun _ _ _ => RtoC 0))) Ls S)
       L spin nside s reality).
Proof.
  intros O f_wav f_scal L N lam J_min J spin s nside reality psi phi sz Ls precomps HL HN Hlam EJ HJ Hpsi Hphi Hsz HLs Hp Hf Hw.
  rewrite (sz_eq L N lam true sz ltac:(lra) Hsz). rewrite (Ls_eq L J_min lam true Ls ltac:(lra) HLs) in *.
  rewrite (jax_none_sy O f_wav f_scal L N J_min J) by (auto; lra || lia).
  rewrite (jax_synthesis_ok L N J_min J lam HL HN Hlam EJ ltac:(lia)); try lia.
  - apply bind_ext. intros S ES. erewrite mapM_ext; [reflexivity|]. intros j Hj. apply In_zrange in Hj.
    rewrite lrd_map by lia. reflexivity.
  - now apply sh3.
  - now injection Hphi.
  - intros S ES. apply sh2. auto.
  - intros j fj pj T Hj _ Ep ET. rewrite lrd_map in Ep by lia. apply Ok_inj in Ep. subst pj. apply sh3. eapply Hw, ET.
Qed.

(*@ C33_precompute_analysis *)
Lemma k_pre_an : forall O f L N lam J_min J spin s nside reality psi phi sz Ls precomps,
  1 <= L -> 1 <= N <= L -> (1 < lam)%R -> j_max L lam = Ok J -> 0 <= J_min < J ->
  shape3 psi = [J + 1; L; 2 * L - 1] -> shape1 phi = [L] ->
  (forall j, LN_j L j N lam true = Ok (sz j)) -> scal_bandlimit L J_min lam true = Ok Ls ->
  generate_full_precomputes L N J_min lam s nside false reality false = Ok precomps ->
  (forall flm, p_fwd O f (SKern L 0 reality s nside true) L s reality spin nside = Ok flm -> shape2 flm = [L; 2 * L - 1]) ->
  pre_analysis O f L N J_min lam spin s nside reality (Some (psi, phi)) (Some precomps)
  = (flm <- p_fwd O f (SKern L 0 reality s nside true) L s reality spin nside ;;
     w <- mapM (fun j => let '(Lj, Nj, _) := sz j in
            p_winv O (wcoefs L psi flm sz j) (WKern Lj Nj reality s nside false) Lj Nj s reality nside)
            (zrange J_min (J + 1)) ;;
     sc <- (if Ls =? 1 then Ok (constant_field (scaling_coefs L phi flm Ls))
            else p_inv O (scaling_coefs L phi flm Ls) (SKern Ls 0 reality s nside false) Ls s reality spin nside) ;;
     Ok (w, sc)).
Proof.
  intros O f L N lam J_min J spin s nside reality psi phi sz Ls precomps HL HN Hlam EJ HJ Hpsi Hphi Hsz HLs Hp Hf.
  rewrite (sz_eq L N lam true sz ltac:(lra) Hsz), (Ls_eq L J_min lam true Ls ltac:(lra) HLs).
  rewrite (gen_full_ok L N J_min lam s nside false reality false J) in Hp by (auto; lra || lia).
  cbn [negb] in Hp. apply Ok_inj in Hp. subst precomps.
  rewrite (pre_analysis_ok L N J_min J lam HL HN Hlam EJ ltac:(lia)); try lia.
  - apply bind_ext. intros flm Ef. rewrite sc_one.
    erewrite mapM_ext; [reflexivity|]. intros j Hj. apply In_zrange in Hj. rewrite wk_nth by (auto; lia). reflexivity.
  - now apply sh3.
  - now injection Hphi.
  - intros flm Ef. apply sh2. auto.
Qed.

(*@ C33_precompute_synthesis *)
Lemma k_pre_sy : forall O f_wav f_scal L N lam J_min J spin s nside reality psi phi sz Ls precomps,
  1 <= L -> 1 <= N <= L -> (1 < lam)%R -> j_max L lam = Ok J -> 0 <= J_min < J ->
  shape3 psi = [J + 1; L; 2 * L - 1] -> shape1 phi = [L] ->
  (forall j, LN_j L j N lam true = Ok (sz j)) -> scal_bandlimit L J_min lam true = Ok Ls ->
  generate_full_precomputes L N J_min lam s nside true reality false = Ok precomps ->
  (forall S, p_fwd O f_scal (SKern Ls 0 reality s nside true) Ls s reality spin nside = Ok S -> shape2 S = [Ls; 2 * Ls - 1]) ->
  (forall f L N a, p_wfwd O f (WKern L N reality s nside true) L N s reality nside = Ok a ->
     shape3 a = [2 * N - 1; L; 2 * L - 1]) ->
  pre_synthesis O f_wav f_scal L N J_min lam spin s nside reality (Some (psi, phi)) (Some precomps)
  = (S <- p_fwd O f_scal (SKern Ls 0 reality s nside true) Ls s reality spin nside ;;
     Ws <- mapM (fun j => let '(Lj, Nj, _) := sz j in
            fj <- lrd f_wav (j - J_min) ;;
            p_wfwd O fj (WKern Lj Nj reality s nside true) Lj Nj s reality nside) (zrange J_min (J + 1)) ;;
     p_inv O (synthesised L J_min J psi phi sz
                (fun j => nth (Z.to_nat (j - J_min)) Ws (mk3 0 0 0 (fun _ _ _ => RtoC 0))) Ls S)
       (SKern L 0 reality s nside false) L s reality spin nside).
Proof.
  intros O f_wav f_scal L N lam J_min J spin s nside reality psi phi sz Ls precomps HL HN Hlam EJ HJ Hpsi Hphi Hsz HLs Hp Hf Hw.
  rewrite (sz_eq L N lam true sz ltac:(lra) Hsz). rewrite (Ls_eq L J_min lam true Ls ltac:(lra) HLs) in *.
  rewrite (gen_full_ok L N J_min lam s nside true reality false J) in Hp by (auto; lra || lia).
  cbn [negb] in Hp. apply Ok_inj in Hp. subst precomps.
  rewrite (pre_synthesis_ok L N J_min J lam HL HN Hlam EJ ltac:(lia)); try lia.
  - apply bind_ext. intros S ES. erewrite mapM_ext; [reflexivity|]. intros j Hj. apply In_zrange in Hj.
    rewrite wk_nth by (auto; lia). reflexivity.
  - now apply sh3.
  - now injection Hphi.
  - intros S ES. apply sh2. auto.
  - intros j fj pj T Hj _ Ep ET. rewrite wk_nth in Ep by (auto; lia). apply Ok_inj in Ep. subst pj.
    apply sh3. eapply Hw, ET.
Qed.

(*@ C33_torch_analysis *)
Lemma k_torch_an : forall O f L N lam J_min J spin s nside reality psi phi sz Ls precomps,
  1 <= L -> 1 <= N <= L -> (1 < lam)%R -> j_max L lam = Ok J -> 0 <= J_min < J ->
  shape3 psi = [J + 1; L; 2 * L - 1] -> shape1 phi = [L] ->
  (forall j, LN_j L j N lam true = Ok (sz j)) -> scal_bandlimit L J_min lam true = Ok Ls ->
  generate_full_precomputes L N J_min lam s nside false reality false = Ok precomps ->
  (forall flm, t_fwd O f (SKern L 0 reality s nside true) L s reality spin nside = Ok flm -> shape2 flm = [L; 2 * L - 1]) ->
  torch_analysis O f L N J_min lam spin s nside reality (Some (psi, phi)) (Some precomps)
  = (flm <- t_fwd O f (SKern L 0 reality s nside true) L s reality spin nside ;;
     w <- mapM (fun j => let '(Lj, Nj, _) := sz j in
            t_winv O (wcoefs L psi flm sz j) (WKern Lj Nj reality s nside false) Lj Nj s reality nside)
            (zrange J_min (J + 1)) ;;
     sc <- (if Ls =? 1 then Ok (constant_field (scaling_coefs L phi flm Ls))
            else t_inv O (scaling_coefs L phi flm Ls) (SKern Ls 0 reality s nside false) Ls s reality spin nside) ;;
     Ok (map Some w, sc)).
Proof.
  intros O f L N lam J_min J spin s nside reality psi phi sz Ls precomps HL HN Hlam EJ HJ Hpsi Hphi Hsz HLs Hp Hf.
  rewrite (sz_eq L N lam true sz ltac:(lra) Hsz), (Ls_eq L J_min lam true Ls ltac:(lra) HLs).
  rewrite (gen_full_ok L N J_min lam s nside false reality false J) in Hp by (auto; lra || lia).
  cbn [negb] in Hp. apply Ok_inj in Hp. subst precomps.
  rewrite (torch_analysis_ok L N J_min J lam HL HN Hlam EJ ltac:(lia)); try lia.
  - apply bind_ext. intros flm Ef. rewrite sc_one.
    erewrite mapM_ext; [reflexivity|]. intros j Hj. apply In_zrange in Hj. rewrite wk_nth by (auto; lia). reflexivity.
  - now apply sh3.
  - now injection Hphi.
  - intros flm Ef. apply sh2. auto.
Qed.

(*@ C33_torch_synthesis *)
Lemma k_torch_sy : forall O f_wav f_scal L N lam J_min J spin s nside reality psi phi sz Ls precomps,
  1 <= L -> 1 <= N <= L -> (1 < lam)%R -> j_max L lam = Ok J -> 0 <= J_min < J ->
  shape3 psi = [J + 1; L; 2 * L - 1] -> shape1 phi = [L] ->
  (forall j, LN_j L j N lam true = Ok (sz j)) -> scal_bandlimit L J_min lam true = Ok Ls ->
  generate_full_precomputes L N J_min lam s nside true reality false = Ok precomps ->
  (forall S, t_fwd O f_scal (SKern Ls 0 reality s nside true) Ls s reality spin nside = Ok S -> shape2 S = [Ls; 2 * Ls - 1]) ->
  (forall f L N a, t_wfwd O f (WKern L N reality s nside true) L N s reality nside = Ok a ->
     shape3 a = [2 * N - 1; L; 2 * L - 1]) ->
  torch_synthesis O f_wav f_scal L N J_min lam spin s nside reality (Some (psi, phi)) (Some precomps)
  = (S <- t_fwd O f_scal (SKern Ls 0 reality s nside true) Ls s reality spin nside ;;
     Ws <- mapM (fun j => let '(Lj, Nj, _) := sz j in
            fj <- lrd f_wav (j - J_min) ;;
            t_wfwd O fj (WKern Lj Nj reality s nside true) Lj Nj s reality nside) (zrange J_min (J + 1)) ;;
     t_inv O (synthesised L J_min J psi phi sz
                (fun j => nth (Z.to_nat (j - J_min)) Ws (mk3 0 0 0 (fun _ _ _ => RtoC 0))) Ls S)
       (SKern L 0 reality s nside false) L s reality spin nside).
Proof.
  intros O f_wav f_scal L N lam J_min J spin s nside reality psi phi sz Ls precomps HL HN Hlam EJ HJ Hpsi Hphi Hsz HLs Hp Hf Hw.
  rewrite (sz_eq L N lam true sz ltac:(lra) Hsz). rewrite (Ls_eq L J_min lam true Ls ltac:(lra) HLs) in *.
  rewrite (gen_full_ok L N J_min lam s nside true reality false J) in Hp by (auto; lra || lia).
  cbn [negb] in Hp. apply Ok_inj in Hp. subst precomps.
  rewrite (torch_synthesis_ok L N J_min J lam HL HN Hlam EJ ltac:(lia)); try lia.
  - apply bind_ext. intros S ES. erewrite mapM_ext; [reflexivity|]. intros j Hj. apply In_zrange in Hj.
    rewrite wk_nth by (auto; lia). reflexivity.
  - now apply sh3.
  - now injection Hphi.
  - intros S ES. apply sh2. auto.
  - intros j fj pj T Hj _ Ep ET. rewrite wk_nth in Ep by (auto; lia). apply Ok_inj in Ep. subst pj.
    apply sh3. eapply Hw, ET.
Qed.

(*@E C33_example *)
Lemma ex_c33 : exists psi phi sz Ls ks ks' pa ps, filters_directional_vectorised 5 3 1 2 0 0 = Ok (psi, phi) /\ j_max 5 2 = Ok 3 /\
  shape3 psi = [3 + 1; 5; 2 * 5 - 1] /\ shape1 phi = [5] /\
  (forall j, LN_j 5 j 3 2 true = Ok (sz j)) /\ scal_bandlimit 5 1 2 true = Ok Ls /\
  generate_wigner_precomputes 5 3 1 2 MW None false true = Ok ks /\
  generate_wigner_precomputes 5 3 1 2 MW None true true = Ok ks' /\
  generate_full_precomputes 5 3 1 2 MW None false true false = Ok pa /\
  generate_full_precomputes 5 3 1 2 MW None true true false = Ok ps /\
  (forall f L flm, j_fwd demo f L 0 None MW true = Ok flm -> shape2 flm = [L; 2 * L - 1]) /\
  (forall f L flm, p_fwd demo f (SKern L 0 true MW None true) L MW true 0 None = Ok flm -> shape2 flm = [L; 2 * L - 1]) /\
  (forall f L flm, t_fwd demo f (SKern L 0 true MW None true) L MW true 0 None = Ok flm -> shape2 flm = [L; 2 * L - 1]) /\
  (forall f L N L0 a, j_wfwd demo f L N None MW true (RKern L N MW None true true L0) L0 = Ok a -> shape3 a = [2 * N - 1; L; 2 * L - 1]) /\
  (forall f L N a, p_wfwd demo f (WKern L N true MW None true) L N MW true None = Ok a -> shape3 a = [2 * N - 1; L; 2 * L - 1]) /\
  (forall f L N a, t_wfwd demo f (WKern L N true MW None true) L N MW true None = Ok a -> shape3 a = [2 * N - 1; L; 2 * L - 1]).
Proof.
  destruct (v5 3 1 ltac:(lia) ltac:(lia)) as (psi & phi & E & T & S3 & S1). destruct (s5 3 1 true) as (sz & Ls & E1 & E2).
  exists psi, phi, sz, Ls. do 4 eexists. repeat (split; [demo_step|]).
  pose proof (demo_fwd_shapes 0 MW None true) as [A B].
  cbn [b_fwd b_wfwd demo] in A, B. repeat match goal with |- _ /\ _ => split end; cbn [j_fwd j_wfwd p_fwd p_wfwd t_fwd t_wfwd demo]; intros;
    first [eapply A; eassumption | eapply B; eassumption].
Qed.

(*% ** C34: stopping at J_max.  The precompute backends use at scale J_max the kernel of another scale;
      with [_precomp_shift=False] they use the right one, except that there is none for J_max = j_max *)

Lemma shift_scale L N J_min J J_max lam s nside fw re j : 0 <= J_min < J -> J_min <= J_max <= J -> J_min <= j <= J_max ->
  lrd (map (wkf L N lam s nside fw re) (zrange J_min J)) (j - J_min + shift J_max j true)
  = Ok (wkf L N lam s nside fw re (kernel_scale J_min J J_max j)).
Proof.
  intros HJ HJm Hj. unfold shift, kernel_scale. destruct (Z.ltb_spec j J_max).
  - rewrite Z.add_0_r. apply lrd_map. lia.
  - destruct (Z.ltb_spec J_min J_max).
    + replace (j - J_min + -1) with (J_max - 1 - J_min) by lia. apply lrd_map. lia.
    + replace (j - J_min + -1) with (-1) by lia. rewrite <- (lrd_map (wkf L N lam s nside fw re) J_min J (J - 1)) by lia.
      unfold lrd. rewrite map_length, zrange_length. unfold idx.
      rewrite (proj2 (andb_true_iff (- Z.of_nat (Z.to_nat (J - J_min)) <=? -1) (-1 <? Z.of_nat (Z.to_nat (J - J_min))))) by (rewrite Z.leb_le, Z.ltb_lt; lia).
      rewrite (proj2 (andb_true_iff (- Z.of_nat (Z.to_nat (J - J_min)) <=? J - 1 - J_min) (J - 1 - J_min <? Z.of_nat (Z.to_nat (J - J_min))))) by (rewrite Z.leb_le, Z.ltb_lt; lia).
      replace (J - 1 - J_min <? 0) with false by (symmetry; apply Z.ltb_ge; lia).
      change (-1 <? 0) with true. cbn [bind]. now replace (-1 + Z.of_nat (Z.to_nat (J - J_min))) with (J - 1 - J_min) by lia.
Qed.

(*@ C34_precompute *)
Lemma trunc_pre : forall O flm L N lam J_min J J_max s nside reality psi sz precomps,
  1 <= L -> 1 <= N <= L -> (1 < lam)%R -> j_max L lam = Ok J -> 0 <= J_min < J -> J_min <= J_max <= J ->
  shape3 psi = [J + 1; L; 2 * L - 1] -> shape2 flm = [L; 2 * L - 1] ->
  (forall j, LN_j L j N lam true = Ok (sz j)) ->
  generate_full_precomputes L N J_min lam s nside false reality false = Ok precomps ->
  pre_flm_to_analysis O flm L N J_min (Some J_max) lam s nside reality (Some psi) (Some precomps) true
  = mapM (fun j => let '(Lj, Nj, _) := sz j in let '(Lk, Nk, _) := sz (kernel_scale J_min J J_max j) in
             p_winv O (wcoefs L psi flm sz j) (WKern Lk Nk reality s nside false) Lj Nj s reality nside)
           (zrange J_min (J_max + 1)).
Proof.
  intros O flm L N lam J_min J J_max s nside reality psi sz precomps HL HN Hlam EJ HJ HJm Hpsi Hflm Hsz Hp.
  rewrite (sz_eq L N lam true sz ltac:(lra) Hsz).
  rewrite (gen_full_ok L N J_min lam s nside false reality false J) in Hp by (auto; lra || lia).
  cbn [negb] in Hp. apply Ok_inj in Hp. subst precomps.
  rewrite (pre_flm_ok L N J_min J lam HL HN Hlam EJ ltac:(lia)); [|lia|lia|now apply sh3|now apply sh2].
  erewrite mapM_ext; [reflexivity|]. intros j Hj. apply In_zrange in Hj.
  rewrite (shift_scale L N J_min J J_max) by lia. reflexivity.
Qed.

(*@ C34_precompute_checked *)
Lemma trunc_pre_checked : forall O flm L N lam J_min J J_max s nside reality psi sz precomps,
  1 <= L -> 1 <= N <= L -> (1 < lam)%R -> j_max L lam = Ok J -> 0 <= J_min < J -> J_min <= J_max <= J ->
  shape3 psi = [J + 1; L; 2 * L - 1] -> shape2 flm = [L; 2 * L - 1] ->
  (forall j, LN_j L j N lam true = Ok (sz j)) ->
  generate_full_precomputes L N J_min lam s nside false reality false = Ok precomps ->
  fst (sz (kernel_scale J_min J J_max J_max)) <> fst (sz J_max) ->
  exists e, pre_flm_to_analysis (checked O) flm L N J_min (Some J_max) lam s nside reality (Some psi)
              (Some precomps) true = Err e.
Proof.
  intros O flm L N lam J_min J J_max s nside reality psi sz precomps HL HN Hlam EJ HJ HJm Hpsi Hflm Hsz Hp Hne.
  rewrite (trunc_pre (checked O) flm L N lam J_min J J_max s nside reality psi sz) by assumption.
  rewrite zrange_snoc, mapM_app by lia. cbn [mapM].
  destruct (sz J_max) as [[Lj Nj] L0j] eqn:E1. destruct (sz (kernel_scale J_min J J_max J_max)) as [[Lk Nk] L0k] eqn:E2.
  cbn [fst] in Hne. cbn [p_winv checked].
  replace (wk_eqb _ _) with false.
  - cbn [chk bind]. match goal with |- context [mapM ?f ?l] => destruct (mapM f l) end; cbn [bind]; eauto.
  - symmetry. apply not_true_iff_false. unfold wk_eqb. cbn [wk_L wk_N]. rewrite !andb_true_iff, !Z.eqb_eq.
    intros H. apply Hne. f_equal; tauto.
Qed.

(*@ C34_torch *)
Lemma trunc_torch : forall O flm L N lam J_min J J_max s nside reality psi sz precomps,
  1 <= L -> 1 <= N <= L -> (1 < lam)%R -> j_max L lam = Ok J -> 0 <= J_min < J -> J_min <= J_max <= J ->
  shape3 psi = [J + 1; L; 2 * L - 1] -> shape2 flm = [L; 2 * L - 1] ->
  (forall j, LN_j L j N lam true = Ok (sz j)) ->
  generate_full_precomputes L N J_min lam s nside false reality false = Ok precomps ->
  torch_flm_to_analysis O flm L N J_min (Some J_max) lam s nside reality (Some psi) (Some precomps)
  = (w <- mapM (fun j => let '(Lj, Nj, _) := sz j in let '(Lk, Nk, _) := sz (kernel_scale J_min J J_max j) in
             t_winv O (wcoefs L psi flm sz j) (WKern Lk Nk reality s nside false) Lj Nj s reality nside)
           (zrange J_min (J_max + 1)) ;; Ok (map Some w)).
Proof.
  intros O flm L N lam J_min J J_max s nside reality psi sz precomps HL HN Hlam EJ HJ HJm Hpsi Hflm Hsz Hp.
  rewrite (sz_eq L N lam true sz ltac:(lra) Hsz).
  rewrite (gen_full_ok L N J_min lam s nside false reality false J) in Hp by (auto; lra || lia).
  cbn [negb] in Hp. apply Ok_inj in Hp. subst precomps.
  rewrite (torch_flm_ok L N J_min J lam HL HN Hlam EJ ltac:(lia)); [|lia|lia|now apply sh3|now apply sh2].
  erewrite mapM_ext; [reflexivity|]. intros j Hj. apply In_zrange in Hj.
  rewrite (shift_scale L N J_min J J_max) by lia. reflexivity.
Qed.

(*@ C34_torch_checked *)
Lemma trunc_torch_checked : forall O flm L N lam J_min J J_max s nside reality psi sz precomps,
  1 <= L -> 1 <= N <= L -> (1 < lam)%R -> j_max L lam = Ok J -> 0 <= J_min < J -> J_min <= J_max <= J ->
  shape3 psi = [J + 1; L; 2 * L - 1] -> shape2 flm = [L; 2 * L - 1] ->
  (forall j, LN_j L j N lam true = Ok (sz j)) ->
  generate_full_precomputes L N J_min lam s nside false reality false = Ok precomps ->
  fst (sz (kernel_scale J_min J J_max J_max)) <> fst (sz J_max) ->
  exists e, torch_flm_to_analysis (checked O) flm L N J_min (Some J_max) lam s nside reality (Some psi)
              (Some precomps) = Err e.
Proof.
  intros O flm L N lam J_min J J_max s nside reality psi sz precomps HL HN Hlam EJ HJ HJm Hpsi Hflm Hsz Hp Hne.
  rewrite (trunc_torch (checked O) flm L N lam J_min J J_max s nside reality psi sz) by assumption.
  rewrite zrange_snoc, mapM_app by lia. cbn [mapM].
  destruct (sz J_max) as [[Lj Nj] L0j] eqn:E1. destruct (sz (kernel_scale J_min J J_max J_max)) as [[Lk Nk] L0k] eqn:E2.
  cbn [fst] in Hne. cbn [t_winv checked].
  replace (wk_eqb _ _) with false.
  - cbn [chk bind]. match goal with |- context [mapM ?f ?l] => destruct (mapM f l) end; cbn [bind]; eauto.
  - symmetry. apply not_true_iff_false. unfold wk_eqb. cbn [wk_L wk_N]. rewrite !andb_true_iff, !Z.eqb_eq.
    intros H. apply Hne. f_equal; tauto.
Qed.

(*@ C34_unshifted *)
Lemma unshifted_pre : forall O flm L N lam J_min J J_max s nside reality psi sz precomps,
  1 <= L -> 1 <= N <= L -> (1 < lam)%R -> j_max L lam = Ok J -> 0 <= J_min < J -> J_min <= J_max < J ->
  shape3 psi = [J + 1; L; 2 * L - 1] -> shape2 flm = [L; 2 * L - 1] ->
  (forall j, LN_j L j N lam true = Ok (sz j)) ->
  generate_full_precomputes L N J_min lam s nside false reality false = Ok precomps ->
  pre_flm_to_analysis O flm L N J_min (Some J_max) lam s nside reality (Some psi) (Some precomps) false
  = mapM (fun j => let '(Lj, Nj, _) := sz j in
             p_winv O (wcoefs L psi flm sz j) (WKern Lj Nj reality s nside false) Lj Nj s reality nside)
           (zrange J_min (J_max + 1)).
Proof.
  intros O flm L N lam J_min J J_max s nside reality psi sz precomps HL HN Hlam EJ HJ HJm Hpsi Hflm Hsz Hp.
  rewrite (sz_eq L N lam true sz ltac:(lra) Hsz).
  rewrite (gen_full_ok L N J_min lam s nside false reality false J) in Hp by (auto; lra || lia).
  cbn [negb] in Hp. apply Ok_inj in Hp. subst precomps.
  rewrite (pre_flm_ok L N J_min J lam HL HN Hlam EJ ltac:(lia)); [|lia|lia|now apply sh3|now apply sh2].
  erewrite mapM_ext; [reflexivity|]. intros j Hj. apply In_zrange in Hj.
  unfold shift. rewrite Z.add_0_r, lrd_map by lia. reflexivity.
Qed.

(*@ C34_unshifted_top *)
Lemma unshifted_top : forall O flm L N lam J_min J J_max s nside reality psi sz precomps,
  1 <= L -> 1 <= N <= L -> (1 < lam)%R -> j_max L lam = Ok J -> 0 <= J_min < J ->
  J_max = None \/ J_max = Some J ->
  shape3 psi = [J + 1; L; 2 * L - 1] -> shape2 flm = [L; 2 * L - 1] ->
  (forall j, LN_j L j N lam true = Ok (sz j)) ->
  generate_full_precomputes L N J_min lam s nside false reality false = Ok precomps ->
  pre_flm_to_analysis O flm L N J_min J_max lam s nside reality (Some psi) (Some precomps) false
  = (_ <- mapM (fun j => let '(Lj, Nj, _) := sz j in
             p_winv O (wcoefs L psi flm sz j) (WKern Lj Nj reality s nside false) Lj Nj s reality nside)
           (zrange J_min J) ;;
     Err IndexError).
Proof.
  intros O flm L N lam J_min J J_max s nside reality psi sz precomps HL HN Hlam EJ HJ HJm Hpsi Hflm Hsz Hp.
  rewrite (sz_eq L N lam true sz ltac:(lra) Hsz).
  rewrite (gen_full_ok L N J_min lam s nside false reality false J) in Hp by (auto; lra || lia).
  cbn [negb] in Hp. apply Ok_inj in Hp. subst precomps.
  match goal with |- pre_flm_to_analysis O flm L N J_min J_max lam s nside reality ?x ?y false = _ =>
    assert (E : pre_flm_to_analysis O flm L N J_min J_max lam s nside reality x y false
      = pre_flm_to_analysis O flm L N J_min (Some J) lam s nside reality x y false) end.
  { destruct HJm as [-> | ->]; [|reflexivity]. unfold pre_flm_to_analysis, pick_J. now rewrite EJ. }
  rewrite E, (pre_flm_ok L N J_min J lam HL HN Hlam EJ ltac:(lia)); [|lia|lia|now apply sh3|now apply sh2].
  rewrite zrange_snoc, mapM_app by lia. cbn [mapM]. unfold shift.
  rewrite (mapM_ext _ (fun j => p_winv O (wc L N lam true psi flm j) (wkf L N lam s nside false reality j)
        (Lj_of L j lam true) (Nj_of L j N lam true) s reality nside)).
  - apply bind_ext. intros ys _. rewrite Z.add_0_r, lrd_map_err by lia. reflexivity.
  - intros j Hj. apply In_zrange in Hj. rewrite Z.add_0_r, lrd_map by lia. reflexivity.
Qed.

Lemma pwZ k i : 0 <= i -> powerRZ (IZR k) i = IZR (k ^ i).
Proof.
  intros H. rewrite <- (Z2Nat.id i) by assumption. rewrite <- pow_powerRZ, pow_IZR. reflexivity.
Qed.
(*@ C34_which_scales *)
Lemma which_scales : forall L N k J i j sz,
  1 <= L -> 2 <= k -> j_max L (IZR k) = Ok J -> 0 <= i < J -> 0 <= j < J ->
  (forall j, LN_j L j N (IZR k) true = Ok (sz j)) ->
  fst (fst (sz i)) = fst (fst (sz j)) <-> Z.max 1 i = Z.max 1 j.
Proof.
  intros L N k J i j sz HL Hk EJ Hi Hj Hsz.
  assert (Hlam : (1 < IZR k)%R) by (apply IZR_lt; lia).
  rewrite (sz_eq L N (IZR k) true sz ltac:(lra) Hsz). cbn [fst szf].
  assert (B : forall i, 0 <= i < J - 1 -> Z.max 1 i < J - 1 -> Lj_of L i (IZR k) true = k ^ (Z.max 1 i + 1) /\ k ^ (Z.max 1 i + 1) < L).
  { clear i j Hi Hj. intros i Hi Hm. apply j_max_iff in EJ; auto.
    assert (jj i = Z.max 1 i) as Ej by (unfold jj; destruct (Z.eqb_spec i 0); lia).
    assert (powerRZ (IZR k) (jj i + 1) <= powerRZ (IZR k) (J - 1))%R by (apply pw_le; auto; lia).
    unfold Lj_of. rewrite pwZ by lia. rewrite rceil_IZR. rewrite <- Ej.
    rewrite pwZ in H by lia.
    assert (k ^ (jj i + 1) < L) by (apply lt_IZR; lra). lia. }
  assert (F : forall i, 0 <= i -> J - 1 <= Z.max 1 i -> Lj_of L i (IZR k) true = L).
  { clear i j Hi Hj. intros i Hi Hm. destruct (Z_le_gt_dec (J - 1) i) as [|g].
    - apply (Lj_full _ _ _ _ J); auto.
    - assert (i = 0) by lia. assert (J <= 2) by lia. subst i.
      assert (E : Lj_of L 0 (IZR k) true = Lj_of L 1 (IZR k) true) by reflexivity. rewrite E.
      apply (Lj_full _ _ _ _ J); auto; lia. }
  assert (M : forall i j, 0 <= i < J -> 0 <= j < J -> Z.max 1 i < Z.max 1 j -> Lj_of L i (IZR k) true < Lj_of L j (IZR k) true).
  { clear i j Hi Hj. intros i j Hi Hj Hlt. destruct (B i) as [-> ?]; try lia.
    destruct (Z_lt_le_dec (Z.max 1 j) (J - 1)).
    - destruct (B j) as [-> ?]; try lia. apply Z.pow_lt_mono_r; lia.
    - rewrite (F j) by lia. assumption. }
  split.
  - intros E. destruct (Z_lt_le_dec (Z.max 1 i) (Z.max 1 j)); [specialize (M i j); lia|].
    destruct (Z_lt_le_dec (Z.max 1 j) (Z.max 1 i)); [specialize (M j i); lia|]. lia.
  - intros E. unfold Lj_of, jj. destruct (Z.eqb_spec i 0), (Z.eqb_spec j 0); subst; auto; repeat f_equal; lia.
Qed.

(*% with L = 5, scales 0 .. 2 and J_max = 2, the kernel of scale 1 is used at scale 2, and it has another band-limit *)
(*@E C34_example *)
Lemma ex_c34 : exists psi phi sz pa, filters_directional_vectorised 5 3 0 2 0 0 = Ok (psi, phi) /\ j_max 5 2 = Ok 3 /\
  shape3 psi = [3 + 1; 5; 2 * 5 - 1] /\ shape2 (demo_flm 5) = [5; 2 * 5 - 1] /\
  (forall j, LN_j 5 j 3 2 true = Ok (sz j)) /\
  generate_full_precomputes 5 3 0 2 MW None false true false = Ok pa /\
  kernel_scale 0 3 2 2 = 1 /\ fst (sz (kernel_scale 0 3 2 2)) <> fst (sz 2).
Proof.
  destruct (v5 3 0 ltac:(lia) ltac:(lia)) as (psi & phi & E & T & S3 & S1). destruct (s5 3 0 true) as (sz & Ls & E1 & E2).
  exists psi, phi, sz. eexists. repeat (split; [demo_step|]).
  change (kernel_scale 0 3 2 2) with 1. intros H. apply (f_equal fst) in H.
  apply (which_scales 5 3 2 3 1 2 sz) in H; [discriminate|..]; demo_step.
Qed.

(*% ** C35: the spherical kernels *)

Lemma sam_refl s : sampling_eqb s s = true. Proof. now destruct s. Qed.
Lemma oz_refl s : oz_eqb s s = true. Proof. destruct s; cbn; auto. apply Z.eqb_refl. Qed.
Lemma sk_refl k : sk_eqb k k = true.
Proof. unfold sk_eqb. now rewrite !Z.eqb_refl, sam_refl, oz_refl, !eqb_reflx. Qed.
Lemma wk_refl k : wk_eqb k k = true.
Proof. unfold wk_eqb. now rewrite !Z.eqb_refl, sam_refl, oz_refl, !eqb_reflx. Qed.

(*@ C35_precompute_analysis *)
Lemma sp0_pre_an : forall O f L N lam J_min J spin s nside reality psi phi precomps,
  1 <= L -> 1 <= N <= L -> (1 < lam)%R -> j_max L lam = Ok J -> 0 <= J_min < J ->
  shape3 psi = [J + 1; L; 2 * L - 1] -> shape1 phi = [L] ->
  generate_full_precomputes L N J_min lam s nside false reality false = Ok precomps ->
  (forall f L flm, p_fwd O f (SKern L 0 reality s nside true) L s reality 0 nside = Ok flm -> shape2 flm = [L; 2 * L - 1]) ->
  pre_analysis (checked O) f L N J_min lam spin s nside reality (Some (psi, phi)) (Some precomps)
  = if spin =? 0
    then pre_analysis O f L N J_min lam spin s nside reality (Some (psi, phi)) (Some precomps)
    else Err AssertionError.
Proof.
  intros O f L N lam J_min J spin s nside reality psi phi precomps HL HN Hlam EJ HJ Hpsi Hphi Hp Hf.
  destruct (Z.eqb_spec spin 0) as [->|Hs].
  - assert (Hsz := fun j => LN_j_ok L j N lam true ltac:(lra)). assert (HLs := scal_bandlimit_ok L J_min lam true ltac:(lra)).
    rewrite (k_pre_an (checked O) f L N lam J_min J 0 s nside reality psi phi _ _ precomps HL HN Hlam EJ HJ Hpsi Hphi Hsz HLs Hp).
    rewrite (k_pre_an O f L N lam J_min J 0 s nside reality psi phi _ _ precomps HL HN Hlam EJ HJ Hpsi Hphi Hsz HLs Hp).
    + cbn [p_fwd p_inv p_winv checked]. rewrite !sk_refl. cbn [chk]. apply bind_ext. intros flm Ef.
      erewrite mapM_ext; [reflexivity|]. intros j Hj. cbn beta iota. rewrite wk_refl. reflexivity.
    + intros. eapply Hf; eauto.
    + cbn [p_fwd checked]. rewrite !sk_refl. cbn [chk]. intros. eapply Hf; eauto.
  - assert (Hsz := fun j => LN_j_ok L j N lam true ltac:(lra)). assert (HLs := scal_bandlimit_ok L J_min lam true ltac:(lra)).
    assert (E0 : forall L, sk_eqb (SKern L 0 reality s nside true) (SKern L spin reality s nside true) = false)
      by (intros; unfold sk_eqb; cbn [sk_spin]; rewrite (proj2 (Z.eqb_neq 0 spin)) by lia; now rewrite andb_false_r).
    rewrite (k_pre_an (checked O) f L N lam J_min J spin s nside reality psi phi _ _ precomps HL HN Hlam EJ HJ Hpsi Hphi Hsz HLs Hp).
    + cbn [p_fwd checked]. rewrite E0. reflexivity.
    + cbn [p_fwd checked]. rewrite E0. discriminate.
Qed.

(*@ C35_precompute_synthesis *)
Lemma sp0_pre_sy : forall O f_wav f_scal L N lam J_min J spin s nside reality psi phi precomps,
  1 <= L -> 1 <= N <= L -> (1 < lam)%R -> j_max L lam = Ok J -> 0 <= J_min < J ->
  shape3 psi = [J + 1; L; 2 * L - 1] -> shape1 phi = [L] ->
  generate_full_precomputes L N J_min lam s nside true reality false = Ok precomps ->
  (forall f L flm, p_fwd O f (SKern L 0 reality s nside true) L s reality 0 nside = Ok flm -> shape2 flm = [L; 2 * L - 1]) ->
  (forall f L N a, p_wfwd O f (WKern L N reality s nside true) L N s reality nside = Ok a ->
     shape3 a = [2 * N - 1; L; 2 * L - 1]) ->
  pre_synthesis (checked O) f_wav f_scal L N J_min lam spin s nside reality (Some (psi, phi)) (Some precomps)
  = if spin =? 0
    then pre_synthesis O f_wav f_scal L N J_min lam spin s nside reality (Some (psi, phi)) (Some precomps)
    else Err AssertionError.
Proof.
  intros O f_wav f_scal L N lam J_min J spin s nside reality psi phi precomps HL HN Hlam EJ HJ Hpsi Hphi Hp Hf Hw.
  destruct (Z.eqb_spec spin 0) as [->|Hs].
  - assert (Hsz := fun j => LN_j_ok L j N lam true ltac:(lra)). assert (HLs := scal_bandlimit_ok L J_min lam true ltac:(lra)).
    rewrite (k_pre_sy (checked O) f_wav f_scal L N lam J_min J 0 s nside reality psi phi _ _ precomps HL HN Hlam EJ HJ Hpsi Hphi Hsz HLs Hp).
    rewrite (k_pre_sy O f_wav f_scal L N lam J_min J 0 s nside reality psi phi _ _ precomps HL HN Hlam EJ HJ Hpsi Hphi Hsz HLs Hp).
    + cbn [p_fwd p_inv p_wfwd checked]. rewrite !sk_refl. cbn [chk]. apply bind_ext. intros S ES.
      erewrite mapM_ext.
      * apply bind_ext. intros Ws _. rewrite ?sk_refl. reflexivity.
      * intros j Hj. cbn beta iota. apply bind_ext. intros fj _. rewrite wk_refl. reflexivity.
    + intros. eapply Hf; eauto.
    + exact Hw.
    + cbn [p_fwd checked]. rewrite !sk_refl. cbn [chk]. intros. eapply Hf; eauto.
    + cbn [p_wfwd checked]. intros ? ? ? ?. rewrite !wk_refl. cbn [chk]. apply Hw.
  - assert (Hsz := fun j => LN_j_ok L j N lam true ltac:(lra)). assert (HLs := scal_bandlimit_ok L J_min lam true ltac:(lra)).
    assert (E0 : forall L, sk_eqb (SKern L 0 reality s nside true) (SKern L spin reality s nside true) = false)
      by (intros; unfold sk_eqb; cbn [sk_spin]; rewrite (proj2 (Z.eqb_neq 0 spin)) by lia; now rewrite andb_false_r).
    rewrite (k_pre_sy (checked O) f_wav f_scal L N lam J_min J spin s nside reality psi phi _ _ precomps HL HN Hlam EJ HJ Hpsi Hphi Hsz HLs Hp).
    + cbn [p_fwd checked]. rewrite E0. reflexivity.
    + cbn [p_fwd checked]. rewrite E0. discriminate.
    + cbn [p_wfwd checked]. intros ? ? ? ?. rewrite !wk_refl. cbn [chk]. apply Hw.
Qed.

(*@ C35_torch_analysis *)
Lemma sp0_torch_an : forall O f L N lam J_min J spin s nside reality psi phi precomps,
  1 <= L -> 1 <= N <= L -> (1 < lam)%R -> j_max L lam = Ok J -> 0 <= J_min < J ->
  shape3 psi = [J + 1; L; 2 * L - 1] -> shape1 phi = [L] ->
  generate_full_precomputes L N J_min lam s nside false reality false = Ok precomps ->
  (forall f L flm, t_fwd O f (SKern L 0 reality s nside true) L s reality 0 nside = Ok flm -> shape2 flm = [L; 2 * L - 1]) ->
  torch_analysis (checked O) f L N J_min lam spin s nside reality (Some (psi, phi)) (Some precomps)
  = if spin =? 0
    then torch_analysis O f L N J_min lam spin s nside reality (Some (psi, phi)) (Some precomps)
    else Err AssertionError.
Proof.
  intros O f L N lam J_min J spin s nside reality psi phi precomps HL HN Hlam EJ HJ Hpsi Hphi Hp Hf.
  destruct (Z.eqb_spec spin 0) as [->|Hs].
  - assert (Hsz := fun j => LN_j_ok L j N lam true ltac:(lra)). assert (HLs := scal_bandlimit_ok L J_min lam true ltac:(lra)).
    rewrite (k_torch_an (checked O) f L N lam J_min J 0 s nside reality psi phi _ _ precomps HL HN Hlam EJ HJ Hpsi Hphi Hsz HLs Hp).
    rewrite (k_torch_an O f L N lam J_min J 0 s nside reality psi phi _ _ precomps HL HN Hlam EJ HJ Hpsi Hphi Hsz HLs Hp).
    + cbn [t_fwd t_inv t_winv checked]. rewrite !sk_refl. cbn [chk]. apply bind_ext. intros flm Ef.
      erewrite mapM_ext; [reflexivity|]. intros j Hj. cbn beta iota. rewrite wk_refl. reflexivity.
    + intros. eapply Hf; eauto.
    + cbn [t_fwd checked]. rewrite !sk_refl. cbn [chk]. intros. eapply Hf; eauto.
  - assert (Hsz := fun j => LN_j_ok L j N lam true ltac:(lra)). assert (HLs := scal_bandlimit_ok L J_min lam true ltac:(lra)).
    assert (E0 : forall L, sk_eqb (SKern L 0 reality s nside true) (SKern L spin reality s nside true) = false)
      by (intros; unfold sk_eqb; cbn [sk_spin]; rewrite (proj2 (Z.eqb_neq 0 spin)) by lia; now rewrite andb_false_r).
    rewrite (k_torch_an (checked O) f L N lam J_min J spin s nside reality psi phi _ _ precomps HL HN Hlam EJ HJ Hpsi Hphi Hsz HLs Hp).
    + cbn [t_fwd checked]. rewrite E0. reflexivity.
    + cbn [t_fwd checked]. rewrite E0. discriminate.
Qed.

(*@ C35_torch_synthesis *)
Lemma sp0_torch_sy : forall O f_wav f_scal L N lam J_min J spin s nside reality psi phi precomps,
  1 <= L -> 1 <= N <= L -> (1 < lam)%R -> j_max L lam = Ok J -> 0 <= J_min < J ->
  shape3 psi = [J + 1; L; 2 * L - 1] -> shape1 phi = [L] ->
  generate_full_precomputes L N J_min lam s nside true reality false = Ok precomps ->
  (forall f L flm, t_fwd O f (SKern L 0 reality s nside true) L s reality 0 nside = Ok flm -> shape2 flm = [L; 2 * L - 1]) ->
  (forall f L N a, t_wfwd O f (WKern L N reality s nside true) L N s reality nside = Ok a ->
     shape3 a = [2 * N - 1; L; 2 * L - 1]) ->
  torch_synthesis (checked O) f_wav f_scal L N J_min lam spin s nside reality (Some (psi, phi)) (Some precomps)
  = if spin =? 0
    then torch_synthesis O f_wav f_scal L N J_min lam spin s nside reality (Some (psi, phi)) (Some precomps)
    else Err AssertionError.
Proof.
  intros O f_wav f_scal L N lam J_min J spin s nside reality psi phi precomps HL HN Hlam EJ HJ Hpsi Hphi Hp Hf Hw.
  destruct (Z.eqb_spec spin 0) as [->|Hs].
  - assert (Hsz := fun j => LN_j_ok L j N lam true ltac:(lra)). assert (HLs := scal_bandlimit_ok L J_min lam true ltac:(lra)).
    rewrite (k_torch_sy (checked O) f_wav f_scal L N lam J_min J 0 s nside reality psi phi _ _ precomps HL HN Hlam EJ HJ Hpsi Hphi Hsz HLs Hp).
    rewrite (k_torch_sy O f_wav f_scal L N lam J_min J 0 s nside reality psi phi _ _ precomps HL HN Hlam EJ HJ Hpsi Hphi Hsz HLs Hp).
    + cbn [t_fwd t_inv t_wfwd checked]. rewrite !sk_refl. cbn [chk]. apply bind_ext. intros S ES.
      erewrite mapM_ext.
      * apply bind_ext. intros Ws _. rewrite ?sk_refl. reflexivity.
      * intros j Hj. cbn beta iota. apply bind_ext. intros fj _. rewrite wk_refl. reflexivity.
    + intros. eapply Hf; eauto.
    + exact Hw.
    + cbn [t_fwd checked]. rewrite !sk_refl. cbn [chk]. intros. eapply Hf; eauto.
    + cbn [t_wfwd checked]. intros ? ? ? ?. rewrite !wk_refl. cbn [chk]. apply Hw.
  - assert (Hsz := fun j => LN_j_ok L j N lam true ltac:(lra)). assert (HLs := scal_bandlimit_ok L J_min lam true ltac:(lra)).
    assert (E0 : forall L, sk_eqb (SKern L 0 reality s nside true) (SKern L spin reality s nside true) = false)
      by (intros; unfold sk_eqb; cbn [sk_spin]; rewrite (proj2 (Z.eqb_neq 0 spin)) by lia; now rewrite andb_false_r).
    rewrite (k_torch_sy (checked O) f_wav f_scal L N lam J_min J spin s nside reality psi phi _ _ precomps HL HN Hlam EJ HJ Hpsi Hphi Hsz HLs Hp).
    + cbn [t_fwd checked]. rewrite E0. reflexivity.
    + cbn [t_fwd checked]. rewrite E0. discriminate.
    + cbn [t_wfwd checked]. intros ? ? ? ?. rewrite !wk_refl. cbn [chk]. apply Hw.
Qed.

(*@E C35_example *)
Lemma ex_c35 : exists psi phi pa ps f, filters_directional_vectorised 5 3 1 2 1 0 = Ok (psi, phi) /\ j_max 5 2 = Ok 3 /\
  shape3 psi = [3 + 1; 5; 2 * 5 - 1] /\ shape1 phi = [5] /\
  generate_full_precomputes 5 3 1 2 MW None false true false = Ok pa /\
  generate_full_precomputes 5 3 1 2 MW None true true false = Ok ps /\
  (forall f L flm, p_fwd demo f (SKern L 0 true MW None true) L MW true 0 None = Ok flm -> shape2 flm = [L; 2 * L - 1]) /\
  pre_analysis (checked demo) f 5 3 1 2 1 MW None true (Some (psi, phi)) (Some pa) = Err AssertionError.
Proof.
  destruct (valid_range 5 3 2 3 1 1 0) as (_ & _ & _ & _ & (psi & phi & E & S3 & S1) & _); try demo_step.
  destruct ex_c33 as (_ & _ & _ & _ & _ & _ & pa & ps & _ & _ & _ & _ & _ & _ & _ & _ & Ea & Es & _ & Hp & _).
  destruct (f5 MW true ltac:(now left)) as (f & Ef).
  exists psi, phi, pa, ps, f. repeat (split; [demo_step|]).
  rewrite (sp0_pre_an demo f 5 3 2 1 3 1 MW None true psi phi pa) by demo_step. reflexivity.
Qed.

(*% ** C36: refused calls *)

(*@ C36_precompute *)
Lemma refuse_pre : forall O f f_wav f_scal flm L N J_min J_max lam spin s nside reality filters psi b,
  pre_analysis O f L N J_min lam spin s nside reality filters None = Err ValueError /\
  pre_synthesis O f_wav f_scal L N J_min lam spin s nside reality filters None = Err ValueError /\
  pre_flm_to_analysis O flm L N J_min J_max lam s nside reality psi None b = Err ValueError.
Proof. repeat split. Qed.

(*@ C36_torch *)
Lemma refuse_torch : forall O f f_wav f_scal flm L N J_min J_max lam spin s nside reality filters psi,
  torch_analysis O f L N J_min lam spin s nside reality filters None = Err ValueError /\
  torch_synthesis O f_wav f_scal L N J_min lam spin s nside reality filters None = Err ValueError /\
  torch_flm_to_analysis O flm L N J_min J_max lam s nside reality psi None = Err ValueError.
Proof. repeat split. Qed.

(*@ C36_c *)
Lemma refuse_c : forall O f f_wav f_scal L N J_min lam spin s reality filters,
  s = HEALPIX \/ s = Unknown ->
  ssht_analysis O f L N J_min lam spin s reality filters = Err ValueError /\
  ssht_synthesis O f_wav f_scal L N J_min lam spin s reality filters = Err ValueError.
Proof. intros O f f_wav f_scal L N J_min lam spin s reality filters [-> | ->]; split; reflexivity. Qed.

(*% ** C37: scaling coefficients on one pixel *)

(*@ C37_promised_shape *)
Lemma one_promised : forall L J_min lam s nside, (0 < lam)%R ->
  scal_bandlimit L J_min lam true = Ok 1 -> sampling_known s nside ->
  f_scal L J_min lam s nside true = Ok [1; 1] <-> s = MW \/ s = GL.
Proof.
  intros L J_min lam s nside Hl HLs Hk. rewrite f_scal_ok by assumption.
  rewrite <- (Ls_eq L J_min lam true 1 Hl HLs). unfold s2_f_shape.
  destruct s; cbn; split; intros H; try tauto; try (destruct H; discriminate); try discriminate.
  all: try (destruct nside; discriminate).
Qed.

Lemma one_value L phi flm : 1 <= L ->
  nshape (constant_field (scaling_coefs L phi flm 1)) = [1; 1] /\
  ndat (constant_field (scaling_coefs L phi flm 1)) [0; 0] = Cmult (get2 flm 0 (L - 1)) (RtoC (get1 phi 0)).
Proof.
  intros HL. split; [reflexivity|]. cbn [constant_field ndat]. change ((0 =? 0) && (0 =? 0)) with true. cbv iota.
  unfold scaling_coefs. rewrite get2_mk by lia. cbv zeta.
  replace (L - 1 + (0 - (1 - 1))) with (L - 1) by lia. rewrite <- Cmult_assoc, <- RtoC_mult. do 2 f_equal.
  replace (4 * PI / (2 * 0 + 1))%R with (4 * PI)%R by field.
  assert (P := PI_RGT_0).
  replace (sqrt (4 * PI) * get1 phi 0%Z * sqrt (1 / (4 * PI)))%R
    with (sqrt (4 * PI) * sqrt (1 / (4 * PI)) * get1 phi 0%Z)%R by ring.
  rewrite <- sqrt_mult by (try apply Rlt_le, Rdiv_lt_0_compat; lra).
  replace (4 * PI * (1 / (4 * PI)))%R with 1%R by (field; lra). rewrite sqrt_1. ring.
Qed.
(*@ C37_jax *)
Lemma one_jax : forall O f L N lam J_min J spin s nside reality psi phi Ls precomps w sc,
  1 <= L -> 1 <= N <= L -> (1 < lam)%R -> j_max L lam = Ok J -> 0 <= J_min < J ->
  shape3 psi = [J + 1; L; 2 * L - 1] -> shape1 phi = [L] ->
  scal_bandlimit L J_min lam true = Ok Ls ->
  precomps = None \/
    (exists ks, generate_wigner_precomputes L N J_min lam s nside false reality = Ok ks /\ precomps = Some ks) ->
  (forall flm, j_fwd O f L spin nside s reality = Ok flm -> shape2 flm = [L; 2 * L - 1]) ->
  (forall a y, j_inv O a Ls spin nside s reality = Ok y -> s2_f_shape Ls s nside = Ok (nshape y)) ->
  jax_analysis O f L N J_min lam spin s nside reality (Some (psi, phi)) precomps = Ok (w, sc) ->
  exists flm, j_fwd O f L spin nside s reality = Ok flm /\
    (Ls = 1 -> nshape sc = [1; 1] /\ ndat sc [0; 0] = Cmult (get2 flm 0 (L - 1)) (RtoC (get1 phi 0))) /\
    (Ls <> 1 -> f_scal L J_min lam s nside true = Ok (nshape sc)).
Proof.
  intros O f L N lam J_min J spin s nside reality psi phi Ls precomps w sc HL HN Hlam EJ HJ Hpsi Hphi HLs Hp Hf Hi H.
  rewrite f_scal_ok by lra. rewrite <- (Ls_eq L J_min lam true Ls ltac:(lra) HLs).
  rewrite (k_jax_an O f L N lam J_min J spin s nside reality psi phi _ Ls precomps HL HN Hlam EJ HJ Hpsi Hphi (fun j => LN_j_ok L j N lam true ltac:(lra)) HLs Hp) in H;
    [|assumption..].
  match type of H with bind ?x _ = _ => destruct x as [flm|]; cbn [bind] in H; [|discriminate] end.
  exists flm. split; [reflexivity|].
  match type of H with bind ?x _ = _ => destruct x as [ws|]; cbn [bind] in H; [|discriminate] end.
  destruct (Z.eqb_spec Ls 1) as [->|Hne]; cbn [bind] in H.
  - apply Ok_inj, pair_equal_spec in H. destruct H as [_ <-]. split; [|lia]. intros _. now apply one_value.
  - match type of H with bind ?x _ = _ => destruct x as [y|] eqn:Ey; cbn [bind] in H; [|discriminate] end.
    apply Ok_inj, pair_equal_spec in H. destruct H as [_ <-]. split; [lia|]. intros _. eapply Hi, Ey.
Qed.

(*@ C37_precompute *)
Lemma one_precompute : forall O f L N lam J_min J spin s nside reality psi phi Ls precomps w sc,
  1 <= L -> 1 <= N <= L -> (1 < lam)%R -> j_max L lam = Ok J -> 0 <= J_min < J ->
  shape3 psi = [J + 1; L; 2 * L - 1] -> shape1 phi = [L] ->
  scal_bandlimit L J_min lam true = Ok Ls ->
  generate_full_precomputes L N J_min lam s nside false reality false = Ok precomps ->
  (forall flm, p_fwd O f (SKern L 0 reality s nside true) L s reality spin nside = Ok flm -> shape2 flm = [L; 2 * L - 1]) ->
  (forall a y, p_inv O a (SKern Ls 0 reality s nside false) Ls s reality spin nside = Ok y -> s2_f_shape Ls s nside = Ok (nshape y)) ->
  pre_analysis O f L N J_min lam spin s nside reality (Some (psi, phi)) (Some precomps) = Ok (w, sc) ->
  exists flm, p_fwd O f (SKern L 0 reality s nside true) L s reality spin nside = Ok flm /\
    (Ls = 1 -> nshape sc = [1; 1] /\ ndat sc [0; 0] = Cmult (get2 flm 0 (L - 1)) (RtoC (get1 phi 0))) /\
    (Ls <> 1 -> f_scal L J_min lam s nside true = Ok (nshape sc)).
Proof.
  intros O f L N lam J_min J spin s nside reality psi phi Ls precomps w sc HL HN Hlam EJ HJ Hpsi Hphi HLs Hp Hf Hi H.
  rewrite f_scal_ok by lra. rewrite <- (Ls_eq L J_min lam true Ls ltac:(lra) HLs).
  rewrite (k_pre_an O f L N lam J_min J spin s nside reality psi phi _ Ls precomps HL HN Hlam EJ HJ Hpsi Hphi (fun j => LN_j_ok L j N lam true ltac:(lra)) HLs Hp) in H;
    [|assumption..].
  match type of H with bind ?x _ = _ => destruct x as [flm|]; cbn [bind] in H; [|discriminate] end.
  exists flm. split; [reflexivity|].
  match type of H with bind ?x _ = _ => destruct x as [ws|]; cbn [bind] in H; [|discriminate] end.
  destruct (Z.eqb_spec Ls 1) as [->|Hne]; cbn [bind] in H.
  - apply Ok_inj, pair_equal_spec in H. destruct H as [_ <-]. split; [|lia]. intros _. now apply one_value.
  - match type of H with bind ?x _ = _ => destruct x as [y|] eqn:Ey; cbn [bind] in H; [|discriminate] end.
    apply Ok_inj, pair_equal_spec in H. destruct H as [_ <-]. split; [lia|]. intros _. eapply Hi, Ey.
Qed.

(*@ C37_torch *)
Lemma one_torch : forall O f L N lam J_min J spin s nside reality psi phi Ls precomps w sc,
  1 <= L -> 1 <= N <= L -> (1 < lam)%R -> j_max L lam = Ok J -> 0 <= J_min < J ->
  shape3 psi = [J + 1; L; 2 * L - 1] -> shape1 phi = [L] ->
  scal_bandlimit L J_min lam true = Ok Ls ->
  generate_full_precomputes L N J_min lam s nside false reality false = Ok precomps ->
  (forall flm, t_fwd O f (SKern L 0 reality s nside true) L s reality spin nside = Ok flm -> shape2 flm = [L; 2 * L - 1]) ->
  (forall a y, t_inv O a (SKern Ls 0 reality s nside false) Ls s reality spin nside = Ok y -> s2_f_shape Ls s nside = Ok (nshape y)) ->
  torch_analysis O f L N J_min lam spin s nside reality (Some (psi, phi)) (Some precomps) = Ok (w, sc) ->
  exists flm, t_fwd O f (SKern L 0 reality s nside true) L s reality spin nside = Ok flm /\
    (Ls = 1 -> nshape sc = [1; 1] /\ ndat sc [0; 0] = Cmult (get2 flm 0 (L - 1)) (RtoC (get1 phi 0))) /\
    (Ls <> 1 -> f_scal L J_min lam s nside true = Ok (nshape sc)).
Proof.
  intros O f L N lam J_min J spin s nside reality psi phi Ls precomps w sc HL HN Hlam EJ HJ Hpsi Hphi HLs Hp Hf Hi H.
  rewrite f_scal_ok by lra. rewrite <- (Ls_eq L J_min lam true Ls ltac:(lra) HLs).
  rewrite (k_torch_an O f L N lam J_min J spin s nside reality psi phi _ Ls precomps HL HN Hlam EJ HJ Hpsi Hphi (fun j => LN_j_ok L j N lam true ltac:(lra)) HLs Hp) in H;
    [|assumption..].
  match type of H with bind ?x _ = _ => destruct x as [flm|]; cbn [bind] in H; [|discriminate] end.
  exists flm. split; [reflexivity|].
  match type of H with bind ?x _ = _ => destruct x as [ws|]; cbn [bind] in H; [|discriminate] end.
  destruct (Z.eqb_spec Ls 1) as [->|Hne]; cbn [bind] in H.
  - apply Ok_inj, pair_equal_spec in H. destruct H as [_ <-]. split; [|lia]. intros _. now apply one_value.
  - match type of H with bind ?x _ = _ => destruct x as [y|] eqn:Ey; cbn [bind] in H; [|discriminate] end.
    apply Ok_inj, pair_equal_spec in H. destruct H as [_ <-]. split; [lia|]. intros _. eapply Hi, Ey.
Qed.

Lemma ssht_ix s ix : ssht_index s ix -> ssht_sampling s = Ok ix.
Proof. intros Hix. destruct Hix as [[-> ->]|[[-> ->]|[[-> ->]|[-> ->]]]]; reflexivity. Qed.
Lemma k_c_an : forall O f L N lam J_min J spin s ix reality psi phi sz Ls,
  1 <= L -> 1 <= N <= L -> (1 < lam)%R -> j_max L lam = Ok J -> 0 <= J_min < J ->
  shape3 psi = [J + 1; L; 2 * L - 1] -> shape1 phi = [L] ->
  (forall j, LN_j L j N lam true = Ok (sz j)) -> scal_bandlimit L J_min lam true = Ok Ls ->
  ssht_index s ix ->
  (forall flm, c_fwd O f L spin reality ix = Ok flm -> shape2 flm = [L; 2 * L - 1]) ->
  ssht_analysis O f L N J_min lam spin s reality (Some (psi, phi))
  = (flm <- c_fwd O f L spin reality ix ;;
     w <- mapM (fun j => let '(Lj, Nj, L0j) := sz j in
            c_winv O (wcoefs L psi flm sz j) Lj Nj L0j s reality) (zrange J_min (J + 1)) ;;
     sc <- (if Ls =? 1 then Ok (constant_field (scaling_coefs L phi flm Ls))
            else c_inv O (scaling_coefs L phi flm Ls) Ls spin reality ix) ;;
     Ok (w, sc)).
Proof.
  intros O f L N lam J_min J spin s ix reality psi phi sz Ls HL HN Hlam EJ HJ Hpsi Hphi Hsz HLs Hix Hf.
  rewrite (sz_eq L N lam true sz ltac:(lra) Hsz), (Ls_eq L J_min lam true Ls ltac:(lra) HLs).
  rewrite (ssht_analysis_ok L N J_min J lam HL HN Hlam EJ ltac:(lia) O f spin s reality psi phi ix); try lia.
  - apply bind_ext. intros flm Ef. rewrite sc_one. reflexivity.
  - now apply ssht_ix.
  - now apply sh3.
  - now injection Hphi.
  - intros flm Ef. apply sh2. auto.
Qed.

(*@ C37_c *)
Lemma one_c : forall O f L N lam J_min J spin s ix reality psi phi Ls w sc,
  1 <= L -> 1 <= N <= L -> (1 < lam)%R -> j_max L lam = Ok J -> 0 <= J_min < J ->
  shape3 psi = [J + 1; L; 2 * L - 1] -> shape1 phi = [L] ->
  scal_bandlimit L J_min lam true = Ok Ls ->
  ssht_index s ix ->
  (forall flm, c_fwd O f L spin reality ix = Ok flm -> shape2 flm = [L; 2 * L - 1]) ->
  (forall a y, c_inv O a Ls spin reality ix = Ok y -> s2_f_shape Ls s None = Ok (nshape y)) ->
  ssht_analysis O f L N J_min lam spin s reality (Some (psi, phi)) = Ok (w, sc) ->
  exists flm, c_fwd O f L spin reality ix = Ok flm /\
    (Ls = 1 -> nshape sc = [1; 1] /\ ndat sc [0; 0] = Cmult (get2 flm 0 (L - 1)) (RtoC (get1 phi 0))) /\
    (Ls <> 1 -> f_scal L J_min lam s None true = Ok (nshape sc)).
Proof.
  intros O f L N lam J_min J spin s ix reality psi phi Ls w sc HL HN Hlam EJ HJ Hpsi Hphi HLs Hix Hf Hi H.
  rewrite f_scal_ok by lra. rewrite <- (Ls_eq L J_min lam true Ls ltac:(lra) HLs).
  rewrite (k_c_an O f L N lam J_min J spin s ix reality psi phi _ Ls HL HN Hlam EJ HJ Hpsi Hphi (fun j => LN_j_ok L j N lam true ltac:(lra)) HLs Hix) in H;
    [|assumption..].
  match type of H with bind ?x _ = _ => destruct x as [flm|]; cbn [bind] in H; [|discriminate] end.
  exists flm. split; [reflexivity|].
  match type of H with bind ?x _ = _ => destruct x as [ws|]; cbn [bind] in H; [|discriminate] end.
  destruct (Z.eqb_spec Ls 1) as [->|Hne]; cbn [bind] in H.
  - apply Ok_inj, pair_equal_spec in H. destruct H as [_ <-]. split; [|lia]. intros _. now apply one_value.
  - match type of H with bind ?x _ = _ => destruct x as [y|] eqn:Ey; cbn [bind] in H; [|discriminate] end.
    apply Ok_inj, pair_equal_spec in H. destruct H as [_ <-]. split; [lia|]. intros _. eapply Hi, Ey.
Qed.

(*% a scaling function on one pixel: (1, 1) is the documented shape with mw, not with mwss *)
(*@E C37_example *)
Lemma ex_c37 : exists psi phi f f' w w' sc sc', filters_directional_vectorised 5 3 0 2 0 0 = Ok (psi, phi) /\ j_max 5 2 = Ok 3 /\
  scal_bandlimit 5 0 2 true = Ok 1 /\ sampling_known MW None /\ sampling_known MWSS None /\
  (forall f flm, j_fwd demo f 5 0 None MW true = Ok flm -> shape2 flm = [5; 2 * 5 - 1]) /\
  jax_analysis demo f 5 3 0 2 0 MW None true (Some (psi, phi)) None = Ok (w, sc) /\
  jax_analysis demo f' 5 3 0 2 0 MWSS None true (Some (psi, phi)) None = Ok (w', sc') /\
  nshape sc = [1; 1] /\ nshape sc' = [1; 1] /\ f_scal 5 0 2 MW None true = Ok [1; 1] /\ f_scal 5 0 2 MWSS None true <> Ok [1; 1].
Proof.
  destruct (v5 3 0 ltac:(lia) ltac:(lia)) as (psi & phi & E & T & S3 & S1).
  assert (A : forall s, equiangular s -> exists f w sc, jax_analysis demo f 5 3 0 2 0 s None true (Some (psi, phi)) None = Ok (w, sc) /\ nshape sc = [1; 1]).
  { intros s Hs. destruct (f5 s true Hs) as (f & Ef).
    assert (G : forall b, exists q, generate_wigner_precomputes 5 3 0 2 s None b true = Ok q)
      by (intros b; eexists; apply (gen_wigner_ok _ _ _ _ _ _ _ _ 3); solve [exact J5 | lra | lia]).
    destruct (G false) as [qa Ga], (G true) as [qs Gs].
    destruct (rt_jax demo f (demo_flm 5) 5 3 2 0 3 0 0 s None true psi phi None None qa qs) as (w & sc & Ea & _); try demo_step.
    - now apply demo_exact_j.
    - intros _. exact (demo_one_fwd 0 s None true).
    - exists f, w, sc. split; [exact Ea|].
      destruct (one_jax demo f 5 3 2 0 3 0 s None true psi phi 1 None w sc) as (flm & _ & H1 & _); try demo_step; [| |now apply H1].
      + intros flm Hf. eapply (demo_fwd_shapes 0 s None true). exact Hf.
      + intros a y Hy. pose proof (demo_inv_shapes 0 s None true) as [I _]. eapply I. exact Hy. }
  destruct (A MW ltac:(now left)) as (f & w & sc & Ea & Hn). destruct (A MWSS ltac:(right; now left)) as (f' & w' & sc' & Ea' & Hn').
  exists psi, phi, f, f', w, w', sc, sc'. repeat (split; [demo_step|]).
  split; [intros g flm H; eapply (demo_fwd_shapes 0 MW None true); exact H|]. repeat (split; [assumption|]).
  split; [now apply (one_promised 5 0 2 MW None); try demo_step; left|].
  intros H. apply (one_promised 5 0 2 MWSS None) in H; try demo_step. destruct H; discriminate.
Qed.
