(** Statements and proofs for PropertiesStorage.v *)

From Coq Require Import ZArith Reals List Bool Lia Lra Psatz.
From Coquelicot Require Import Complex.
From Flocq Require Import Core.Raux.
From Verif Require Import Py PyFacts ModelSamples Spec SpecStorage SamplesFacts SamplesProps.
Import ListNotations.
Open Scope Z_scope.

(*T The size of the wavelet maps *)
(*! From Coq Require Import ZArith Reals List Bool. *)
(*! From Coquelicot Require Import Complex. *)
(*! From Verif Require Import Py ModelSamples Spec SpecStorage. *)

(*% ** C82: storage *)

Fixpoint rs (g : Z -> R) (lo : Z) (n : nat) : R := match n with O => 0%R | S k => (rs g lo k + g (lo + Z.of_nat k)%Z)%R end.
Lemma rs_S g lo n : rs g lo (S n) = (g lo + rs g (lo + 1)%Z n)%R.
Proof.
  induction n as [|n IH]; [cbn [rs Z.of_nat]; rewrite Z.add_0_r; lra|].
  change (rs g lo (S (S n))) with (rs g lo (S n) + g (lo + Z.of_nat (S n))%Z)%R. rewrite IH. cbn [rs].
  replace (lo + Z.of_nat (S n)) with (lo + 1 + Z.of_nat n) by lia. lra.
Qed.
Lemma storage_le g K : (0 <= K)%R -> forall l lo,
  (forall i a, nth_error l i = Some a -> (IZR (n_entries (nshape a)) <= K * g (lo + Z.of_nat i)%Z)%R) ->
  (IZR (storage l) <= K * rs g lo (length l))%R.
Proof.
  intros HK l. induction l as [|a l IH]; intros lo H; [cbn; lra|].
  cbn [storage fold_right length]. fold (storage l). rewrite rs_S, plus_IZR.
  pose proof (H 0%nat a eq_refl) as H0. cbn [Z.of_nat] in H0. rewrite Z.add_0_r in H0.
  assert (H1 : (IZR (storage l) <= K * rs g (lo + 1)%Z (length l))%R).
  { apply IH. intros i b Hb. specialize (H (S i) b Hb). replace (lo + 1 + Z.of_nat i) with (lo + Z.of_nat (S i)) by lia. exact H. }
  lra.
Qed.

Lemma entries_le L j N lam mr s nside d sh : 1 <= L -> (1 < lam)%R -> 1 <= N -> density s = Some d ->
  f_wav_j L j N lam s nside mr = Ok sh ->
  (IZR (n_entries sh) <= IZR (d * (2 * N - 1))%Z * (IZR (Lj_of L j lam mr) * IZR (Lj_of L j lam mr)))%R.
Proof.
  intros HL Hlam HN Hd. unfold f_wav_j. rewrite LN_j_ok by lra. cbn [bind].
  pose proof (Lj_range L j lam mr HL ltac:(lra)) as R. destruct (Nj_facts L j N lam mr HL ltac:(lra) HN) as (N1 & N2 & _).
  set (a := Lj_of L j lam mr) in *. set (n := Nj_of L j N lam mr) in *.
  assert (Hn : 1 <= n <= N) by (destruct mr; [specialize (N1 eq_refl)|specialize (N2 eq_refl)]; lia).
  intros E. rewrite <- !mult_IZR. apply IZR_le.
  assert (Hnn : 0 <= 2 * n - 1 <= 2 * N - 1) by lia.
  assert (G : forall nt np e, 0 <= nt * np <= e * (a * a) -> (2 * n - 1) * (nt * (np * 1)) <= e * (2 * N - 1) * (a * a)).
  { intros nt np e He. rewrite Z.mul_1_r. replace (e * (2 * N - 1) * (a * a)) with ((2 * N - 1) * (e * (a * a))) by ring.
    apply Z.mul_le_mono_nonneg; lia. }
  destruct s; try discriminate Hd; cbn [density] in Hd; injection Hd as <-; cbn [so3_f_shape ntheta nphi bind] in E;
    apply Ok_inj in E; subst sh; cbn [n_entries fold_right]; apply G; nia.
Qed.

Section Sums.
Variables (L J : Z) (lam : R).
Hypotheses (HL : 1 <= L) (Hlam : (1 < lam)%R) (EJ : j_max L lam = Ok J).
Notation sq j := (IZR (Lj_of L j lam true) * IZR (Lj_of L j lam true))%R.

Lemma sq_L j : (0 <= sq j <= IZR L * IZR L)%R.
Proof.
  pose proof (Lj_range L j lam true HL ltac:(lra)) as [H1 H2]. apply IZR_le in H1, H2. nra.
Qed.
Lemma J_low : (powerRZ lam (J - 1)%Z < IZR L)%R.
Proof. destruct (j_max_spec L lam HL Hlam) as (J' & E & H). rewrite EJ in E. apply Ok_inj in E. subst J'. lra. Qed.

(** the last two scales have at most L^2 each, the scales below sum up to at most B *)
Lemma two_last B J_min : 0 <= J_min <= J + 1 -> (0 <= B)%R ->
  (forall n, J_min + Z.of_nat n <= J - 1 -> (rs (fun j => sq j) J_min n <= B)%R) ->
  (rs (fun j => sq j) J_min (Z.to_nat (J + 1 - J_min)%Z) <= B + 2 * (IZR L * IZR L))%R.
Proof.
  intros Hm HB H. destruct (Z_le_gt_dec J_min (J - 1)) as [Hle|Hgt].
  - replace (Z.to_nat (J + 1 - J_min)) with (S (S (Z.to_nat (J - 1 - J_min)))) by lia. cbn [rs].
    pose proof (H (Z.to_nat (J - 1 - J_min)) ltac:(lia)) as H1.
    pose proof (sq_L (J_min + Z.of_nat (Z.to_nat (J - 1 - J_min)))). pose proof (sq_L (J_min + Z.of_nat (S (Z.to_nat (J - 1 - J_min))))). lra.
  - assert (C : J_min = J \/ J_min = J + 1) by lia. pose proof (sq_L (J_min + Z.of_nat 0)). pose proof (Rle_0_sqr (IZR L)) as Q. unfold Rsqr in Q.
    destruct C as [-> | ->].
    + replace (Z.to_nat (J + 1 - J)) with 1%nat by lia. cbn [rs]. lra.
    + replace (Z.to_nat (J + 1 - (J + 1))) with 0%nat by lia. cbn [rs]. lra.
Qed.

Lemma sq_pow j : 1 <= j -> (sq j <= 4 * (powerRZ lam (j + 1)%Z * powerRZ lam (j + 1)%Z))%R.
Proof.
  intros Hj. pose proof (Lj_range L j lam true HL ltac:(lra)) as [H1 _]. apply IZR_le in H1.
  assert (H2 : (IZR (Lj_of L j lam true) <= 2 * powerRZ lam (j + 1)%Z)%R).
  { unfold Lj_of, jj. destruct (Z.eqb_spec j 0); [lia|].
    apply Rle_trans with (IZR (rceil (powerRZ lam (j + 1)%Z))); [apply IZR_le; lia|].
    pose proof (rceil_spec (powerRZ lam (j + 1)%Z)). pose proof (pw_ge1 lam (j + 1) Hlam ltac:(lia)). lra. }
  nra.
Qed.

Lemma gen_sum J_min : 0 <= J_min -> forall n,
  (rs (fun j => sq j) J_min n <= (if (J_min + Z.of_nat n <=? 0)%Z then 0 else IZR L * IZR L) +
     4 * (lam * lam / (lam * lam - 1)) * (powerRZ lam (J_min + Z.of_nat n)%Z * powerRZ lam (J_min + Z.of_nat n)%Z))%R.
Proof.
  intros Hm. assert (D : (0 < lam * lam - 1)%R) by nra. assert (Q : (0 < lam * lam / (lam * lam - 1))%R) by (apply Rdiv_lt_0_compat; nra).
  pose proof (Rle_0_sqr (IZR L)) as QL. unfold Rsqr in QL.
  induction n as [|n IH].
  - cbn [rs]. set (p := powerRZ lam (J_min + Z.of_nat 0)). pose proof (Rle_0_sqr p) as QP. unfold Rsqr in QP. destruct (J_min + Z.of_nat 0 <=? 0); nra.
  - cbn [rs]. set (k := J_min + Z.of_nat n) in *. replace (J_min + Z.of_nat (S n)) with (k + 1) by lia.
    destruct (Z.leb_spec (k + 1) 0); [lia|]. rewrite pw_succ by lra. set (p := powerRZ lam k) in *.
    assert (P : (0 < p)%R) by (apply pw_pos; lra).
    assert (STEP : (4 * (lam * lam / (lam * lam - 1)) * (lam * p * (lam * p)) = 4 * (lam * p * (lam * p)) + 4 * (lam * lam / (lam * lam - 1)) * (p * p))%R) by (field; lra).
    rewrite STEP. destruct (Z.leb_spec k 0) as [K|K].
    + assert (k = 0) by lia. pose proof (sq_L k). assert (0 <= lam * p * (lam * p))%R by nra. lra.
    + pose proof (sq_pow k ltac:(lia)) as S. rewrite pw_succ in S by lra. fold p in S. lra.
Qed.

Lemma gen_bound J_min : 0 <= J_min <= J + 1 ->
  (rs (fun j => sq j) J_min (Z.to_nat (J + 1 - J_min)%Z) <= (3 + 4 * (lam * lam / (lam * lam - 1))) * (IZR L * IZR L))%R.
Proof.
  intros Hm. assert (D : (0 < lam * lam - 1)%R) by nra. assert (Q : (0 < lam * lam / (lam * lam - 1))%R) by (apply Rdiv_lt_0_compat; nra).
  set (q := (lam * lam / (lam * lam - 1))%R) in *. pose proof (Rle_0_sqr (IZR L)) as QL. unfold Rsqr in QL.
  replace ((3 + 4 * q) * (IZR L * IZR L))%R with ((1 + 4 * q) * (IZR L * IZR L) + 2 * (IZR L * IZR L))%R by ring.
  apply two_last; [exact Hm|nra|]. intros n Hn. eapply Rle_trans; [apply gen_sum; lia|]. fold q.
  assert (P : (0 < powerRZ lam (J_min + Z.of_nat n)%Z <= IZR L)%R).
  { split; [apply pw_pos; lra|]. apply Rle_trans with (powerRZ lam (J - 1)%Z); [apply pw_le; auto|]. pose proof J_low. lra. }
  set (p := powerRZ lam (J_min + Z.of_nat n)%Z) in *. assert (PP : (p * p <= IZR L * IZR L)%R) by nra.
  assert (4 * q * (p * p) <= 4 * q * (IZR L * IZR L))%R by (apply Rmult_le_compat_l; lra).
  destruct (J_min + Z.of_nat n <=? 0); lra.
Qed.
End Sums.

Lemma sq2 L j : 1 <= L -> 0 <= j -> (IZR (Lj_of L j 2 true) * IZR (Lj_of L j 2 true) <= powerRZ 2 (Z.max j 1 + 1)%Z * powerRZ 2 (Z.max j 1 + 1)%Z)%R.
Proof.
  intros HL Hj. pose proof (Lj_range L j 2 true HL ltac:(lra)) as [H1 _]. apply IZR_le in H1.
  assert (H2 : (IZR (Lj_of L j 2 true) <= powerRZ 2 (Z.max j 1 + 1)%Z)%R).
  { unfold Lj_of. replace (jj j) with (Z.max j 1) by (unfold jj; destruct (Z.eqb_spec j 0); lia).
    replace (Z.max j 1 + 1) with (Z.of_nat (Z.to_nat (Z.max j 1 + 1))) by lia. rewrite pw2.
    replace (2 ^ Z.to_nat (Z.max j 1 + 1)%Z)%R with (IZR (2 ^ Z.of_nat (Z.to_nat (Z.max j 1 + 1)))%Z) by (rewrite <- pow_IZR; reflexivity).
    rewrite rceil_IZR. apply IZR_le. lia. }
  nra.
Qed.
Lemma two_sum L J_min : 1 <= L -> 0 <= J_min -> forall n,
  (3 * rs (fun j => IZR (Lj_of L j 2 true) * IZR (Lj_of L j 2 true)) J_min n <= (if (J_min + Z.of_nat n <=? 0)%Z then 0 else 32) +
     4 * (powerRZ 2 (J_min + Z.of_nat n)%Z * powerRZ 2 (J_min + Z.of_nat n)%Z))%R.
Proof.
  intros HL Hm. induction n as [|n IH].
  - cbn [rs]. set (p := powerRZ 2 (J_min + Z.of_nat 0)). pose proof (Rle_0_sqr p) as QP. unfold Rsqr in QP. destruct (J_min + Z.of_nat 0 <=? 0); lra.
  - cbn [rs]. set (k := J_min + Z.of_nat n) in *. replace (J_min + Z.of_nat (S n)) with (k + 1) by lia.
    destruct (Z.leb_spec (k + 1) 0); [lia|]. rewrite pw_succ by lra. pose proof (sq2 L k HL ltac:(lia)) as S.
    destruct (Z.leb_spec k 0) as [K|K].
    + assert (K0 : k = 0) by lia. assert (N0 : n = 0%nat) by lia. rewrite N0. cbn [rs]. clear IH. clearbody k. subst k. change (Z.max 0 1 + 1) with (Z.of_nat 2) in S. rewrite pw2 in S. rewrite pw_0 in *. cbn [pow] in S. lra.
    + rewrite Z.max_l in S by lia. rewrite pw_succ in S by lra. set (p := powerRZ 2 k) in *. lra.
Qed.

(*% the wavelet maps of all the scales together take a fixed multiple of one map at full resolution, whatever the number of scales *)
(*@ C82_multiresolution_storage *)
Lemma storage_gen : forall L N J_min lam s nside d J w,
  1 <= L -> (1 < lam)%R -> 1 <= N -> density s = Some d -> j_max L lam = Ok J -> 0 <= J_min <= J + 1 ->
  construct_f L N J_min lam s nside true = Ok w ->
  (IZR (storage w) <= IZR (d * (2 * N - 1))%Z * ((3 + 4 * (lam * lam / (lam * lam - 1))) * (IZR L * IZR L)))%R.
Proof.
  intros L N J_min lam s nside d J w HL Hlam HN Hd EJ Hm E.
  assert (Hs : sampling_known s nside) by (destruct s; try discriminate Hd; exact I).
  destruct (pixel_constructors L N J_min lam s nside true J HL Hlam HN Hs EJ ltac:(lia)) as (l & E' & El & Hl & _).
  rewrite E in E'. apply Ok_inj in E'. subst l. unfold n_wav_scales in El. rewrite EJ in El. cbn [bind] in El. apply Ok_inj in El.
  assert (HK : (0 <= IZR (d * (2 * N - 1))%Z)%R) by (apply IZR_le; destruct s; try discriminate Hd; injection Hd as <-; lia).
  eapply Rle_trans.
  - apply (storage_le (fun j => IZR (Lj_of L j lam true) * IZR (Lj_of L j lam true))%R (IZR (d * (2 * N - 1))%Z) HK w J_min).
    intros i a Ha. destruct (Hl i a Ha) as [F _]. eapply entries_le; eauto.
  - apply Rmult_le_compat_l; [exact HK|]. replace (length w) with (Z.to_nat (J + 1 - J_min)) by lia. now apply gen_bound.
Qed.

(*@ C82_default_dilation *)
Lemma storage_two : forall L N J_min s nside d J w,
  1 <= L -> 1 <= N -> density s = Some d -> j_max L 2 = Ok J -> 0 <= J_min <= J + 1 ->
  construct_f L N J_min 2 s nside true = Ok w ->
  3 * storage w <= d * (2 * N - 1) * (10 * (L * L) + 32).
Proof.
  intros L N J_min s nside d J w HL HN Hd EJ Hm E. assert (Hlam : (1 < 2)%R) by lra.
  assert (Hs : sampling_known s nside) by (destruct s; try discriminate Hd; exact I).
  destruct (pixel_constructors L N J_min 2 s nside true J HL Hlam HN Hs EJ ltac:(lia)) as (l & E' & El & Hl & _).
  rewrite E in E'. apply Ok_inj in E'. subst l. unfold n_wav_scales in El. rewrite EJ in El. cbn [bind] in El. apply Ok_inj in El.
  assert (HK : (0 <= IZR (d * (2 * N - 1))%Z)%R) by (apply IZR_le; destruct s; try discriminate Hd; injection Hd as <-; lia).
  assert (S : (IZR (storage w) <= IZR (d * (2 * N - 1))%Z * rs (fun j => IZR (Lj_of L j 2 true) * IZR (Lj_of L j 2 true)) J_min (length w))%R).
  { apply (storage_le (fun j => IZR (Lj_of L j 2 true) * IZR (Lj_of L j 2 true))%R (IZR (d * (2 * N - 1))%Z) HK w J_min).
    intros i a Ha. destruct (Hl i a Ha) as [F _]. eapply entries_le; eauto. }
  replace (length w) with (Z.to_nat (J + 1 - J_min)) in S by lia.
  pose proof (Rle_0_sqr (IZR L)) as QL. unfold Rsqr in QL.
  assert (T : (rs (fun j => IZR (Lj_of L j 2 true) * IZR (Lj_of L j 2 true)) J_min (Z.to_nat (J + 1 - J_min)%Z) <= (32 + 4 * (IZR L * IZR L)) / 3 + 2 * (IZR L * IZR L))%R).
  { apply (two_last L J 2 HL Hlam); [exact Hm|lra|]. intros n Hn. pose proof (two_sum L J_min HL ltac:(lia) n) as T.
    assert (P : (0 < powerRZ 2 (J_min + Z.of_nat n)%Z <= IZR L)%R).
    { split; [apply pw_pos; lra|]. apply Rle_trans with (powerRZ 2 (J - 1)%Z); [apply pw_le; auto|]. pose proof (J_low L J 2 HL Hlam EJ). lra. }
    set (p := powerRZ 2 (J_min + Z.of_nat n)%Z) in *. assert (PP : (p * p <= IZR L * IZR L)%R) by nra.
    destruct (J_min + Z.of_nat n <=? 0); lra. }
  apply le_IZR. rewrite !mult_IZR, plus_IZR, !mult_IZR. rewrite mult_IZR in S, HK.
  set (K := (IZR d * IZR (2 * N - 1)%Z)%R) in *. set (r := rs _ _ _) in *.
  assert (U : (K * r <= K * ((32 + 4 * (IZR L * IZR L)) / 3 + 2 * (IZR L * IZR L)))%R) by (now apply Rmult_le_compat_l).
  replace (K * (10 * (IZR L * IZR L) + 32))%R with (3 * (K * ((32 + 4 * (IZR L * IZR L)) / 3 + 2 * (IZR L * IZR L))))%R by field. lra.
Qed.

(*% at full resolution it is one map per scale *)
(*@ C82_full_resolution_storage *)
Lemma storage_full : forall L N J_min lam s nside J w sh,
  1 <= L -> (1 < lam)%R -> 1 <= N -> sampling_known s nside -> j_max L lam = Ok J -> J_min <= J + 1 ->
  construct_f L N J_min lam s nside false = Ok w -> so3_f_shape L N s nside = Ok sh ->
  storage w = (J - J_min + 1) * n_entries sh /\
  n_entries sh = (2 * N - 1) *
    match s with MW | GL => L * (2 * L - 1) | MWSS => (L + 1) * (2 * L) | DH => 2 * L * (2 * L - 1)
    | HEALPIX => match nside with Some k => 12 * (k * k) | None => 0 end | Unknown => 0 end.
Proof.
  intros L N J_min lam s nside J w sh HL Hlam HN Hs EJ Hm E Esh.
  destruct (pixel_constructors L N J_min lam s nside false J HL Hlam HN Hs EJ ltac:(lia)) as (l & E' & El & Hl & _).
  rewrite E in E'. apply Ok_inj in E'. subst l. unfold n_wav_scales in El. rewrite EJ in El. cbn [bind] in El. apply Ok_inj in El. rewrite El.
  assert (H : forall i a, nth_error w i = Some a -> nshape a = sh).
  { intros i a Ha. destruct (Hl i a Ha) as [F _]. unfold f_wav_j in F. rewrite LN_j_ok in F by lra. cbn [bind] in F.
    unfold Lj_of, Nj_of in F. rewrite Esh in F. now apply Ok_inj in F. }
  split; [clear - H|clear - Esh Hs; destruct s; try destruct nside; try contradiction; cbn [so3_f_shape ntheta nphi bind] in Esh;
    try discriminate Esh; apply Ok_inj in Esh; subst sh; cbn [n_entries fold_right]; ring].
  induction w as [|a w IH]; [reflexivity|]. cbn [storage fold_right length]. fold (storage w).
  rewrite IH by (intros i b Hb; apply (H (S i) b Hb)). rewrite (H 0%nat a eq_refl). lia.
Qed.

(*% L = 5, N = 3, scales 0 to 3, MW sampling *)
(*@E C82_example *)
Lemma ex_c82 : exists w w', j_max 5 2 = Ok 3 /\ density MW = Some 2 /\
  construct_f 5 3 0 2 MW None true = Ok w /\ construct_f 5 3 0 2 MW None false = Ok w' /\
  storage w' = 4 * (5 * (5 * 9)) /\ 3 * storage w <= 2 * (2 * 3 - 1) * (10 * (5 * 5) + 32).
Proof.
  destruct j_max_5_2 as (EJ & _). assert (Hlam : (1 < 2)%R) by lra.
  destruct (pixel_constructors 5 3 0 2 MW None true 3 ltac:(lia) Hlam ltac:(lia) I EJ ltac:(lia)) as (w & E & _).
  destruct (pixel_constructors 5 3 0 2 MW None false 3 ltac:(lia) Hlam ltac:(lia) I EJ ltac:(lia)) as (w' & E' & _).
  exists w, w'. split; [exact EJ|]. split; [reflexivity|]. split; [exact E|]. split; [exact E'|].
  split; [destruct (storage_full 5 3 0 2 MW None 3 w' [5; 5; 9] ltac:(lia) Hlam ltac:(lia) I EJ ltac:(lia) E' eq_refl) as [-> _]; reflexivity|].
  apply (storage_two 5 3 0 MW None 2 3 w); auto; lia.
Qed.
