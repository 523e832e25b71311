(*T Properties of samples.py (C01 - C06) *)
(*! From Coq Require Import ZArith Reals List Bool. *)
(*! From Coquelicot Require Import Complex. *)
(*! From Verif Require Import Py ModelSamples Spec. *)
(** * Proofs of C01 - C06 in the form in which PropertiesSamples.v states them *)

From Coq Require Import ZArith Reals List Bool Lia Lra.
From Coquelicot Require Import Complex.
From Flocq Require Import Core.Raux.
From Verif Require Import Py PyFacts ModelSamples Spec SamplesFacts.
Import ListNotations.
Open Scope Z_scope.

Lemma least_scale_intro lam L J : (1 < lam)%R ->
  (powerRZ lam (J - 1) < IZR L <= powerRZ lam J)%R -> least_scale lam L J.
Proof.
  intros Hlam [H1 H2]. split; auto. intros J' HJ'.
  assert (J - 1 < J'); [|lia]. apply (pw_lt_inv lam); auto. lra.
Qed.

Lemma Ok3_inj {A B C} (a a' : A) (b b' : B) (c c' : C) :
  Ok (a, b, c) = Ok (a', b', c') -> a = a' /\ b = b' /\ c = c'.
Proof. intros H. injection H. auto. Qed.

(*% ** C01: j_max is the least scale covering the band-limit *)

(*@ C01_j_max_is_least_covering_scale *)
Lemma j_max_least : forall L lam, 1 <= L -> (1 < lam)%R ->
  exists J, j_max L lam = Ok J /\ least_scale lam L J /\ 0 <= J /\
            (powerRZ lam (J - 1) < IZR L <= powerRZ lam J)%R.
Proof.
  intros L lam HL Hlam. destruct (j_max_spec L lam HL Hlam) as (J & E & H).
  exists J. repeat split; auto; try tauto.
  - now apply least_scale_intro.
  - eapply j_max_nonneg; eauto.
Qed.

(*@ C01_j_max_not_positive_for_contractions *)
Lemma j_max_contraction : forall L lam, 2 <= L -> (0 < lam < 1)%R ->
  exists J, j_max L lam = Ok J /\ J <= 0.
Proof. exact j_max_small. Qed.

(*@ C01_j_max_fails_outside *)
Lemma j_max_fails_outside : forall L lam,
  lam = 1%R \/ (lam < 0)%R \/ L <= 0 ->
  j_max L lam = Err OverflowError \/ j_max L lam = Err ValueError.
Proof. exact j_max_fails. Qed.

Lemma pw2 n : powerRZ 2 (Z.of_nat n) = (2 ^ n)%R.
Proof. symmetry. apply pow_powerRZ. Qed.

(*% L = 5, lam = 2 has J = 3, and L = 1 has J = 0 *)
(*@E C01_example *)
Lemma j_max_5_2 : j_max 5 2 = Ok 3 /\ j_max 1 2 = Ok 0 /\
  j_max 5 1 = Err OverflowError /\ (exists J, j_max 5 (1/2) = Ok J /\ J <= 0).
Proof.
  split; [|split; [|split]].
  - apply j_max_iff; [lia|lra|]. simpl. lra.
  - apply j_max_iff; [lia|lra|]. simpl. lra.
  - unfold j_max. rewrite !np_log_pos by lra. rewrite ln_1. simpl.
    rewrite reqb_true by reflexivity. rewrite rltb_true by (apply ln_pos; lra). reflexivity.
  - apply j_max_small; [lia|lra].
Qed.

Lemma jj_max j : 0 <= j -> jj j = Z.max j 1.
Proof. unfold jj. zb. Qed.

(*% ** C02: per-scale band-limits nest inside L and increase with the scale *)

(*@ C02_band_limits_nest *)
Lemma band_limits_nest : forall L N lam j, 1 <= L -> (1 < lam)%R -> 0 <= j ->
  LN_j L j N lam false = Ok (L, N, 0) /\
  exists Lj Nj L0j, LN_j L j N lam true = Ok (Lj, Nj, L0j) /\
    0 <= L0j /\ 1 <= Lj <= L /\
    is_ceil (powerRZ lam (Z.max j 1 - 1)) L0j /\
    (exists c, is_ceil (powerRZ lam (Z.max j 1 + 1)) c /\ Lj = Z.min c L).
Proof.
  intros L N lam j HL Hlam Hj. rewrite !LN_j_ok by lra. split; [reflexivity|].
  exists (Lj_of L j lam true), (Nj_of L j N lam true), (L0_of j lam true).
  split; [reflexivity|]. split; [apply L0_nonneg; lra|].
  split; [apply Lj_range; auto; lra|]. rewrite <- jj_max by assumption. split.
  - apply rceil_spec.
  - exists (rceil (powerRZ lam (jj j + 1))). split; [apply rceil_spec|reflexivity].
Qed.

(*@ C02_band_limits_monotone *)
Lemma band_limits_monotone : forall L N lam j j' Lj Nj L0j Lj' Nj' L0j',
  (1 < lam)%R -> 0 <= j <= j' ->
  LN_j L j N lam true = Ok (Lj, Nj, L0j) -> LN_j L j' N lam true = Ok (Lj', Nj', L0j') ->
  Lj <= Lj' /\ L0j <= L0j'.
Proof.
  intros L N lam j j' Lj Nj L0j Lj' Nj' L0j' Hlam Hj. rewrite !LN_j_ok by lra.
  intros (<- & <- & <-)%Ok3_inj (<- & <- & <-)%Ok3_inj. split; [now apply Lj_mono | now apply L0_mono].
Qed.

(*% consecutive scales leave no gap, up to the largest scale *)
(*@ C02_band_limits_overlap *)
Lemma band_limits_overlap : forall L N lam J j Lj Nj L0j Lj' Nj' L0j',
  1 <= L -> (1 < lam)%R -> j_max L lam = Ok J -> 0 <= j -> j + 1 <= J ->
  LN_j L j N lam true = Ok (Lj, Nj, L0j) -> LN_j L (j + 1) N lam true = Ok (Lj', Nj', L0j') ->
  L0j' <= Lj /\ L0j <= Lj /\ L0j' <= Lj'.
Proof.
  intros L N lam J j Lj Nj L0j Lj' Nj' L0j' HL Hlam EJ H0 Hj. rewrite !LN_j_ok by lra.
  intros (<- & <- & <-)%Ok3_inj (<- & <- & <-)%Ok3_inj.
  repeat split; eapply L0_le_Lj; eauto; lia.
Qed.

Lemma rceil_is x n : is_ceil x n -> rceil x = n.
Proof. intros H. unfold rceil. now apply Zceil_imp; rewrite minus_IZR. Qed.

(*@E C02_example *)
Lemma LN_j_10_2 : LN_j 10 1 5 2 true = Ok (4, 5, 1) /\ LN_j 10 2 5 2 true = Ok (8, 5, 2) /\
  j_max 10 2 = Ok 4.
Proof.
  rewrite !LN_j_ok by lra. unfold Lj_of, L0_of, Nj_of, Lj_of, jj. simpl Z.eqb. cbv iota.
  change (1 + 1) with (Z.of_nat 2). change (2 + 1) with (Z.of_nat 3).
  change (1 - 1) with (Z.of_nat 0). change (2 - 1) with (Z.of_nat 1).
  rewrite !pw2. simpl pow.
  replace (rceil (2 * (2 * 1))) with 4 by (symmetry; apply rceil_is; unfold is_ceil; lra).
  replace (rceil (2 * (2 * (2 * 1)))) with 8 by (symmetry; apply rceil_is; unfold is_ceil; lra).
  replace (rceil 1) with 1 by (symmetry; apply rceil_is; unfold is_ceil; lra).
  replace (rceil (2 * 1)) with 2 by (symmetry; apply rceil_is; unfold is_ceil; lra).
  split; [reflexivity|]. split; [reflexivity|].
  apply j_max_iff; [lia|lra|]. simpl. lra.
Qed.

(*% ** C03: the two finest scales live at full resolution *)

(*@ C03_finest_scales_full_resolution *)
Lemma finest_scales : forall L N lam J j s nside,
  2 <= L -> (1 < lam)%R -> 1 <= N -> j_max L lam = Ok J -> J - 1 <= j ->
  exists Nj,
    (exists L0j, LN_j L j N lam true = Ok (L, Nj, L0j)) /\
    (exists L0J, LN_j L J N lam true = Ok (L, Nj, L0J)) /\
    f_wav_j L j N lam s nside true = f_wav_j L J N lam s nside true /\
    flmn_wav_j L j N lam true = flmn_wav_j L J N lam true /\
    flmn_wav_j L j N lam true = Ok (2 * Nj - 1, L, 2 * L - 1).
Proof.
  intros L N lam J j s nside HL Hlam HN EJ Hj.
  pose proof (j_max_pos _ _ _ HL Hlam EJ).
  assert (E1 : Lj_of L j lam true = L) by (eapply Lj_full; eauto; lia).
  assert (E2 : Lj_of L J lam true = L) by (eapply Lj_full; eauto; lia).
  assert (E3 : Nj_of L j N lam true = Nj_of L J N lam true)
    by (unfold Nj_of; now rewrite E1, E2).
  rewrite !f_wav_j_ok, !flmn_wav_j_ok, !LN_j_ok, E1, E2, E3 by lra.
  exists (Nj_of L J N lam true). repeat split; eauto.
Qed.

(*% the scattering buffers (allocated at scale J-1) have the shape of scale J *)
(*@ C03_scattering_buffer_fits *)
Lemma scattering_buffer : forall L N lam J s nside sh a b c,
  2 <= L -> (1 < lam)%R -> 1 <= N -> j_max L lam = Ok J ->
  f_wav_j L J N lam s nside true = Ok sh -> flmn_wav_j L J N lam true = Ok (a, b, c) ->
  (exists x, construct_f_scattering L N lam s nside true = Ok x /\ nshape x = sh) /\
  (exists y, construct_flmn_scattering L N lam true = Ok y /\ shape3 y = [a; b; c]).
Proof.
  intros L N lam J s nside sh a b c HL Hlam HN EJ E1 E2.
  destruct (finest_scales L N lam J (J - 1) s nside HL Hlam HN EJ ltac:(lia))
    as (Nj & _ & _ & F1 & F2 & F3).
  unfold construct_f_scattering, construct_flmn_scattering. rewrite EJ. cbn [bind].
  rewrite F1, F2, E1, E2. cbn [bind]. split.
  - assert (zeros_nd sh = Ok (Nd sh (fun _ => RtoC 0))) as ->.
    { eapply construct_f_entry; try exact E1; auto; try lia; lra. }
    eexists; split; reflexivity.
  - rewrite flmn_wav_j_ok in E2 by lra. apply Ok3_inj in E2. destruct E2 as (<- & <- & <-).
    destruct (Nj_facts L J N lam true) as (_ & _ & H & _); [lia|lra|lia|].
    pose proof (Lj_range L J lam true ltac:(lia) ltac:(lra)).
    rewrite zeros3_ok by lia. eexists; split; reflexivity.
Qed.

(*@E C03_example *)
Lemma finest_example : 2 <= 10 /\ (1 < 2)%R /\ 1 <= 3 /\ j_max 10 2 = Ok 4 /\ 4 - 1 <= 3.
Proof. repeat split; try lia; try lra. apply LN_j_10_2. Qed.

(*% ** C04: per-scale directionality has the parity of N and never exceeds N *)

(*@ C04_directionality_per_scale *)
Lemma directionality : forall L N lam j mr Lj Nj L0j,
  1 <= L -> (1 < lam)%R -> 1 <= N -> 0 <= j ->
  LN_j L j N lam mr = Ok (Lj, Nj, L0j) ->
  Z.min N Lj <= Nj /\ 1 <= Nj <= N /\ (N - Nj) mod 2 = 0 /\
  (mr = true -> Nj <= Lj + 1) /\
  (forall n, In n (zrange_st (- Nj + 1) Nj 2) <-> (Z.abs n < Nj /\ (N - 1 - n) mod 2 = 0)).
Proof.
  intros L N lam j mr Lj Nj L0j HL Hlam HN Hj. rewrite LN_j_ok by lra.
  intros (<- & <- & <-)%Ok3_inj.
  destruct (Nj_facts L j N lam mr HL ltac:(lra) HN) as (H1 & H2 & H3 & H4).
  split; [destruct mr; [specialize (H1 eq_refl); lia | rewrite H2 by auto; lia]|].
  split; [exact H3|]. split; [exact H4|]. split; [intros E; specialize (H1 E); lia|].
  intros n. rewrite In_step2. set (Nj := Nj_of L j N lam mr) in *.
  apply Z.mod_divide in H4; [|lia]. destruct H4 as [q Hq].
  replace (N - 1 - n) with (Nj - 1 - n + q * 2) by lia. rewrite Z.mod_add by lia.
  split; intros [Ha Hb]; split; auto; lia.
Qed.

(*@E C04_example *)
Lemma directionality_example : LN_j 10 1 7 2 true = Ok (4, 5, 1) /\ LN_j 10 1 6 2 true = Ok (4, 4, 1).
Proof.
  rewrite !LN_j_ok by lra. unfold Nj_of, Lj_of, L0_of, jj. simpl Z.eqb. cbv iota.
  change (1 + 1) with (Z.of_nat 2). change (1 - 1) with (Z.of_nat 0). rewrite !pw2. simpl pow.
  replace (rceil (2 * (2 * 1))) with 4 by (symmetry; apply rceil_is; unfold is_ceil; lra).
  replace (rceil 1) with 1 by (symmetry; apply rceil_is; unfold is_ceil; lra).
  split; reflexivity.
Qed.

(*% ** C05: array constructors and shape functions agree *)

(*@ C05_wigner_constructors *)
Lemma wigner_constructors : forall L N J_min lam mr J,
  1 <= L -> (1 < lam)%R -> 1 <= N -> j_max L lam = Ok J -> J_min <= J + 1 ->
  exists l, construct_flmn L N J_min lam mr = Ok l /\
    construct_flmn_jax L N J_min None lam mr = Ok l /\
    construct_flmn_jax L N J_min (Some J) lam mr = Ok l /\
    construct_flmn_torch L N J_min None lam mr = Ok l /\
    n_wav_scales L N J_min lam = Ok (Z.of_nat (length l)) /\
    (forall i a, nth_error l i = Some a ->
       flmn_wav_j L (J_min + Z.of_nat i) N lam mr = Ok (dim0 a, dim1 a, dim2 a) /\
       forall n el m, get3 a n el m = RtoC 0).
Proof.
  intros L N J_min lam mr J HL Hlam HN EJ HJ. assert (Hl : (0 < lam)%R) by lra.
  exists (map (flmn_zero L N lam mr) (zrange J_min (J + 1))).
  split; [now apply construct_flmn_ok|].
  split; [rewrite construct_flmn_jax_eq; now apply construct_flmn_ok|].
  split; [now apply construct_flmn_jax_ok|].
  split; [rewrite construct_flmn_torch_eq; now apply construct_flmn_ok|]. split.
  - unfold n_wav_scales. rewrite EJ, map_length, zrange_length. cbn [bind]. f_equal. lia.
  - intros i a Ha.
    assert (i < length (map (flmn_zero L N lam mr) (zrange J_min (J + 1))))%nat as Hi
      by (apply nth_error_Some; congruence).
    rewrite map_length, zrange_length in Hi. rewrite nth_error_map in Ha.
    rewrite <- (Nat2Z.id i), nth_error_zrange in Ha by lia. simpl in Ha.
    injection Ha as <-. split.
    + rewrite flmn_wav_j_ok by assumption. reflexivity.
    + intros. simpl. destruct (_ && _); reflexivity.
Qed.

(*@ C05_pixel_constructors *)
Lemma pixel_constructors : forall L N J_min lam s nside mr J,
  1 <= L -> (1 < lam)%R -> 1 <= N -> sampling_known s nside ->
  j_max L lam = Ok J -> J_min <= J + 1 ->
  exists l, construct_f L N J_min lam s nside mr = Ok l /\
    n_wav_scales L N J_min lam = Ok (Z.of_nat (length l)) /\
    (forall i a, nth_error l i = Some a ->
       f_wav_j L (J_min + Z.of_nat i) N lam s nside mr = Ok (nshape a) /\
       forall ix, ndat a ix = RtoC 0) /\
    (* the JAX and torch versions: a list of the same length, without arrays *)
    (exists lj, construct_f_jax L J_min None lam = Ok lj /\ length lj = length l) /\
    (exists lt, construct_f_torch L J_min None lam = Ok lt /\ length lt = length l).
Proof.
  intros L N J_min lam s nside mr J HL Hlam HN Hs EJ HJ. assert (Hl : (0 < lam)%R) by lra.
  exists (map (fun j => Nd (f_wav_sh L N lam s nside mr j) (fun _ => RtoC 0)) (zrange J_min (J + 1))).
  split; [now apply construct_f_ok|]. rewrite map_length, zrange_length. split.
  { unfold n_wav_scales. rewrite EJ. cbn [bind]. f_equal. lia. }
  split.
  - intros i a Ha.
    assert (i < length (map (fun j => Nd (f_wav_sh L N lam s nside mr j) (fun _ => RtoC 0))
                            (zrange J_min (J + 1))))%nat as Hi
      by (apply nth_error_Some; congruence).
    rewrite map_length, zrange_length in Hi. rewrite nth_error_map in Ha.
    rewrite <- (Nat2Z.id i), nth_error_zrange in Ha by lia. simpl in Ha.
    injection Ha as <-. simpl nshape. unfold f_wav_sh.
    destruct (f_wav_j_total L (J_min + Z.of_nat i) N lam s nside mr Hl Hs) as (sh & E).
    rewrite E. now split.
  - unfold construct_f_jax, construct_f_torch, pick_J. rewrite EJ. cbn [bind].
    split; (exists (map (fun _ => []) (zrange J_min (J + 1))); split;
            [apply (for_append (fun _ => [])); [lia|]; reflexivity
            | now rewrite map_length, zrange_length]).
Qed.

(*% an explicit J_max replaces j_max: scales J_min to J_max, whatever it is *)
(*@ C05_explicit_J_max *)
Lemma explicit_J_max : forall L N J_min Jm lam mr,
  1 <= L -> (1 < lam)%R -> 1 <= N ->
  (exists l, construct_flmn_jax L N J_min (Some Jm) lam mr = Ok l /\
    construct_flmn_torch L N J_min (Some Jm) lam mr = Ok l /\
    length l = Z.to_nat (Jm + 1 - J_min) /\
    forall i a, nth_error l i = Some a ->
      flmn_wav_j L (J_min + Z.of_nat i) N lam mr = Ok (dim0 a, dim1 a, dim2 a) /\
      forall n el m, get3 a n el m = RtoC 0) /\
  (exists l, construct_f_jax L J_min (Some Jm) lam = Ok l /\ construct_f_torch L J_min (Some Jm) lam = Ok l /\
    length l = Z.to_nat (Jm + 1 - J_min) /\ forall e, In e l -> e = []).
Proof.
  intros L N J_min Jm lam mr HL Hlam HN. assert (Hl : (0 < lam)%R) by lra.
  assert (D : J_min <= Jm + 1 \/ zrange J_min (Jm + 1) = []).
  { destruct (Z_le_gt_dec J_min (Jm + 1)); [now left|right]. apply zrange_nil. lia. }
  split.
  - exists (map (flmn_zero L N lam mr) (zrange J_min (Jm + 1))).
    assert (E : construct_flmn_jax L N J_min (Some Jm) lam mr = Ok (map (flmn_zero L N lam mr) (zrange J_min (Jm + 1)))).
    { destruct D as [D|D]; [now apply construct_flmn_jax_ok|]. unfold construct_flmn_jax, pick_J. cbn [bind]. rewrite D. reflexivity. }
    split; [exact E|]. split; [rewrite construct_flmn_torch_eq; exact E|].
    split; [now rewrite map_length, zrange_length|]. intros i a Ha.
    assert (i < length (map (flmn_zero L N lam mr) (zrange J_min (Jm + 1))))%nat as Hi
      by (apply nth_error_Some; congruence).
    rewrite map_length, zrange_length in Hi. rewrite nth_error_map in Ha.
    rewrite <- (Nat2Z.id i), nth_error_zrange in Ha by lia. simpl in Ha.
    injection Ha as <-. split.
    + rewrite flmn_wav_j_ok by assumption. reflexivity.
    + intros. simpl. destruct (_ && _); reflexivity.
  - exists (map (fun _ => []) (zrange J_min (Jm + 1))). unfold construct_f_jax, construct_f_torch, pick_J. cbn [bind].
    assert (E : for_ (zrange J_min (Jm + 1)) [] (fun _ (f : list (list nd)) => Ok (f ++ [[]])) = Ok (map (fun _ => []) (zrange J_min (Jm + 1)))).
    { destruct D as [D|D]; [apply (for_append (fun _ => [])); [lia|]; reflexivity|]. rewrite D. reflexivity. }
    split; [exact E|]. split; [exact E|]. split; [now rewrite map_length, zrange_length|].
    intros e He. apply in_map_iff in He. destruct He as (x & <- & _). reflexivity.
Qed.

(*@E C05_explicit_example *)
Lemma explicit_example : exists l, construct_f_torch 10 2 (Some 3) 2 = Ok l /\ length l = 2%nat /\
  exists l', construct_flmn_jax 10 3 2 (Some 3) 2 true = Ok l' /\ length l' = 2%nat.
Proof.
  destruct (explicit_J_max 10 3 2 3 2 true ltac:(lia) ltac:(lra) ltac:(lia)) as ((l & E1 & _ & H1 & _) & (l' & _ & E2 & H2 & _)).
  exists l'. split; [exact E2|]. split; [exact H2|]. exists l. split; [exact E1|exact H1].
Qed.

(*@ C05_scaling_constructors *)
Lemma scaling_constructors : forall L J_min lam mr s nside,
  1 <= L -> (1 < lam)%R ->
  exists Ls a, scal_bandlimit L J_min lam mr = Ok Ls /\ 1 <= Ls <= L /\
    construct_flm L J_min lam mr = Ok a /\ construct_flm_jax L J_min lam mr = Ok a /\
    shape2 a = [Ls; 2 * Ls - 1] /\ (forall el m, get2 a el m = RtoC 0) /\
    f_scal L J_min lam s nside mr = s2_f_shape Ls s nside.
Proof.
  intros L J_min lam mr s nside HL Hlam. assert (Hl : (0 < lam)%R) by lra.
  exists (Ls_of L J_min lam mr).
  exists (mk2 (Ls_of L J_min lam mr) (2 * Ls_of L J_min lam mr - 1) (fun _ _ => RtoC 0)).
  split; [now apply scal_bandlimit_ok|]. split; [now apply Ls_range|].
  split; [now apply construct_flm_ok|].
  split; [change (construct_flm_jax L J_min lam mr) with (construct_flm L J_min lam mr);
          now apply construct_flm_ok|].
  split; [reflexivity|]. split; [|now apply f_scal_ok].
  intros. simpl. destruct (_ && _); reflexivity.
Qed.

(*@E C05_example *)
Lemma constructors_example : 1 <= 10 /\ (1 < 2)%R /\ 1 <= 3 /\ sampling_known HEALPIX (Some 8) /\
  j_max 10 2 = Ok 4 /\ 2 <= 4 + 1.
Proof. repeat split; try lia; try lra; try discriminate. apply LN_j_10_2. Qed.

(*% ** C06: the shape check accepts exactly the right shapes *)

(*@ C06_shape_check_exact *)
Lemma shape_check_exact : forall f_w f_s L N J_min lam s nside mr J,
  1 <= L -> (1 < lam)%R -> sampling_known s nside -> j_max L lam = Ok J -> 0 <= J_min <= J ->
  let r := wavelet_shape_check f_w f_s L N J_min lam s nside mr in
  (r = Ok tt <->
     n_wav_scales L N J_min lam = Ok (Z.of_nat (length f_w)) /\
     f_scal L J_min lam s nside mr = Ok (nshape f_s) /\
     forall i a, nth_error f_w i = Some a ->
       f_wav_j L (J_min + Z.of_nat i) N lam s nside mr = Ok (nshape a)) /\
  (r = Ok tt \/ r = Err AssertionError).
Proof. exact shape_check_spec. Qed.

(*% freshly constructed arrays pass the check, and dropping the last one fails it *)
(*@E C06_example *)
Lemma shape_check_example : exists f_w sc,
  construct_f 10 3 2 2 MW None true = Ok f_w /\
  wavelet_shape_check f_w sc 10 3 2 2 MW None true = Ok tt /\
  wavelet_shape_check (removelast f_w) sc 10 3 2 2 MW None true = Err AssertionError.
Proof.
  assert (EJ : j_max 10 2 = Ok 4) by apply LN_j_10_2.
  destruct (pixel_constructors 10 3 2 2 MW None true 4) as (l & E1 & E2 & E3 & _);
    try lia; try lra; simpl; auto.
  destruct (s2_shape_total (Ls_of 10 2 2 true) MW None) as (sh & Esh); [exact I|].
  exists l, (Nd sh (fun _ => RtoC 0)). split; [exact E1|].
  assert (f_scal 10 2 2 MW None true = Ok sh) as Es by (rewrite f_scal_ok by lra; exact Esh).
  assert (Hl : Z.of_nat (length l) = 3).
  { unfold n_wav_scales in E2. rewrite EJ in E2. cbn [bind] in E2. apply Ok_inj in E2. lia. }
  split.
  - apply (shape_check_exact l (Nd sh (fun _ => RtoC 0)) 10 3 2 2 MW None true 4);
      try lia; try lra; simpl; auto. split; [exact E2|]. split; [exact Es|]. intros i a Ha. now apply E3.
  - destruct (shape_check_exact (removelast l) (Nd sh (fun _ => RtoC 0)) 10 3 2 2 MW None true 4)
      as [I1 [I2|I2]]; try lia; try lra; simpl; auto.
    apply I1 in I2. destruct I2 as (I2 & _). rewrite E2 in I2.
    destruct l as [|a l] using rev_ind; [discriminate|].
    rewrite removelast_last, app_length in I2. simpl in I2. apply Ok_inj in I2. lia.
Qed.
