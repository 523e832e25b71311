(** * Rounding errors of complex products and of sums *)

From Coq Require Import ZArith Reals List Bool Permutation Lia Lra Psatz.
From Coquelicot Require Import Rcomplements Complex.
From Flocq Require Import Core Relative Plus_error IEEE754.BinarySingleNaN.
From Verif Require Import Py PyFacts ModelFloat ModelFloatDir ModelFloatTrans Spec SpecFpDir SpecFpTrans FloatFacts FloatDefault FloatDirFacts FloatSpinProps.
Import ListNotations.
Open Scope Z_scope.
#[local] Existing Instance gt53.

Definition eta : R := bpow radix2 (-1075).
Lemma eta_pos : (0 < eta <= / 1000000)%R.
Proof.
  split; [apply bpow_gt_0|]. apply Rle_trans with (bpow radix2 (-20)); [apply bpow_le; lia|].
  change (bpow radix2 (-20)) with (/ 1048576)%R. lra.
Qed.
Lemma eps_pos : (0 < eps <= / 1000000)%R. Proof. unfold eps. lra. Qed.

Lemma uro : (u_ro radix2 53 / (1 + u_ro radix2 53) <= eps)%R.
Proof.
  assert (E : u_ro radix2 53 = eps). { unfold u_ro. change (bpow radix2 (- (53) + 1)) with (/ 4503599627370496)%R. unfold eps. lra. }
  rewrite E. pose proof eps_pos. apply Rmult_le_reg_r with (1 + eps)%R; [lra|]. unfold Rdiv. rewrite Rmult_assoc, Rinv_l by lra. nra.
Qed.
(** any rounding, with underflow *)
Lemma rnd_err x : (Rabs (rnd x - x) <= eps * Rabs x + eta)%R.
Proof.
  destruct (relative_error_N_FLT'_ex radix2 (-1074) 53 ltac:(lia) (fun z => negb (Z.even z)) x) as (e & t & He & Ht & _ & E).
  change (round radix2 (FLT_exp (-1074) 53) (Znearest (fun z => negb (Z.even z))) x) with (rnd x) in E. rewrite E.
  replace (x * (1 + e) + t - x)%R with (e * x + t)%R by ring. pose proof uro. eapply Rle_trans; [apply Rabs_triang|].
  rewrite Rabs_mult. apply Rplus_le_compat.
  - apply Rmult_le_compat_r; [apply Rabs_pos|lra].
  - replace eta with (/ 2 * bpow radix2 (-1074))%R; [exact Ht|]. unfold eta. change (/ 2)%R with (bpow radix2 (-1)). rewrite <- bpow_plus. reflexivity.
Qed.
(** sums do not underflow *)
Lemma rnd_add (x y : f64) : (Rabs (rnd (B2R x + B2R y) - (B2R x + B2R y)) <= eps * Rabs (B2R x + B2R y))%R.
Proof.
  destruct (FLT_plus_error_N_ex radix2 (-1074) 53 (fun z => negb (Z.even z)) (B2R x) (B2R y) (fmt x) (fmt y)) as (e & He & E).
  change (round radix2 (FLT_exp (-1074) 53) (Znearest (fun z => negb (Z.even z))) (B2R x + B2R y)) with (rnd (B2R x + B2R y)) in E. rewrite E.
  replace ((B2R x + B2R y) * (1 + e) - (B2R x + B2R y))%R with (e * (B2R x + B2R y))%R by ring. pose proof uro.
  rewrite Rabs_mult. apply Rmult_le_compat_r; [apply Rabs_pos|lra].
Qed.
Lemma no_over x : (Rabs x <= bpow radix2 1010)%R -> (Rabs (rnd x) < bpow radix2 1024)%R.
Proof.
  intros H. pose proof (rnd_err x) as E. pose proof eps_pos. pose proof eta_pos.
  assert (T : (Rabs (rnd x) <= 2 * bpow radix2 1010)%R).
  { apply Rle_trans with (Rabs (rnd x - x) + Rabs x)%R.
    - replace (rnd x) with (rnd x - x + x)%R at 1 by ring. apply Rabs_triang.
    - assert (1 <= bpow radix2 1010)%R by (change 1%R with (bpow radix2 0); apply bpow_le; lia).
      pose proof (Rabs_pos x). assert (eps * Rabs x <= / 1000000 * bpow radix2 1010)%R by (apply Rmult_le_compat; lra). lra. }
  eapply Rle_lt_trans; [exact T|]. change 2%R with (bpow radix2 1). rewrite <- bpow_plus. apply bpow_lt. lia.
Qed.
Lemma mul_err (x y : f64) : is_finite x = true -> is_finite y = true -> (Rabs (B2R x * B2R y) <= bpow radix2 1005)%R ->
  is_finite (fmul x y) = true /\ B2R (fmul x y) = rnd (B2R x * B2R y).
Proof. intros Fx Fy H. apply fmul_ok; auto. apply no_over. eapply Rle_trans; [exact H|]. apply bpow_le. lia. Qed.
Lemma add_err (x y : f64) : is_finite x = true -> is_finite y = true -> (Rabs (B2R x + B2R y) <= bpow radix2 1010)%R ->
  is_finite (fadd x y) = true /\ B2R (fadd x y) = rnd (B2R x + B2R y).
Proof. intros Fx Fy H. apply fadd_ok; auto. now apply no_over. Qed.
Lemma sub_err (x y : f64) : is_finite x = true -> is_finite y = true -> (Rabs (B2R x - B2R y) <= bpow radix2 1010)%R ->
  is_finite (fsub x y) = true /\ B2R (fsub x y) = rnd (B2R x - B2R y).
Proof. intros Fx Fy H. apply fsub_ok; auto. now apply no_over. Qed.

(** ** complex products *)
(** the rounded product as a function of the values *)
Definition cm (X Y : C) : C :=
  (rnd (rnd (fst X * fst Y) - rnd (snd X * snd Y)), rnd (rnd (fst X * snd Y) + rnd (snd X * fst Y)))%R.
Lemma cs_le a b c d : (Rabs (a * c) + Rabs (b * d) <= Cmod (a, b) * Cmod (c, d))%R.
Proof.
  unfold Cmod. cbn [fst snd]. rewrite <- sqrt_mult_alt by nra. rewrite <- (sqrt_Rsqr (Rabs (a * c) + Rabs (b * d))) by (pose proof (Rabs_pos (a * c)); pose proof (Rabs_pos (b * d)); lra).
  apply sqrt_le_1_alt. unfold Rsqr. rewrite !Rabs_mult.
  rewrite <- (pow2_abs a), <- (pow2_abs b), <- (pow2_abs c), <- (pow2_abs d).
  set (x := Rabs a). set (y := Rabs b). set (z := Rabs c). set (t := Rabs d).
  assert (0 <= (x * t - y * z) ^ 2)%R by apply pow2_ge_0. nra.
Qed.
Lemma cs_le' a b c d : (Rabs (a * d) + Rabs (b * c) <= Cmod (a, b) * Cmod (c, d))%R.
Proof.
  replace (Cmod (c, d)) with (Cmod (d, c)) by (unfold Cmod; cbn [fst snd]; f_equal; ring). apply cs_le.
Qed.
Lemma Rabs_mult_bd a b M : (Rabs (a * b) <= M)%R -> (Rabs a * Rabs b <= M)%R. Proof. now rewrite Rabs_mult. Qed.
Lemma Cmod_sqrt2 (z : C) k : (Rabs (fst z) <= k)%R -> (Rabs (snd z) <= k)%R -> (Cmod z <= 1415 / 1000 * k)%R.
Proof.
  intros A B. assert (0 <= k)%R by (eapply Rle_trans; [apply Rabs_pos|exact A]).
  unfold Cmod. rewrite <- (sqrt_Rsqr (1415 / 1000 * k)) by lra. apply sqrt_le_1_alt. unfold Rsqr.
  rewrite <- (pow2_abs (fst z)), <- (pow2_abs (snd z)). pose proof (Rabs_pos (fst z)). pose proof (Rabs_pos (snd z)). nra.
Qed.
(** one component *)
Lemma comp_err p q M : (Rabs p + Rabs q <= M)%R -> (M <= bpow radix2 1000)%R ->
  (Rabs (rnd p + rnd q) <= bpow radix2 1005)%R /\ (Rabs (rnd p + rnd q - (p + q)) <= eps * M + 2 * eta)%R.
Proof.
  intros H HM. pose proof (rnd_err p) as P. pose proof (rnd_err q) as Q. pose proof eps_pos. pose proof eta_pos.
  assert (E : (Rabs (rnd p + rnd q - (p + q)) <= eps * M + 2 * eta)%R).
  { replace (rnd p + rnd q - (p + q))%R with ((rnd p - p) + (rnd q - q))%R by ring. eapply Rle_trans; [apply Rabs_triang|].
    pose proof (Rabs_pos p). pose proof (Rabs_pos q). nra. }
  split; [|exact E]. replace (rnd p + rnd q)%R with ((rnd p + rnd q - (p + q)) + (p + q))%R by ring.
  eapply Rle_trans; [apply Rabs_triang|]. pose proof (Rabs_triang p q). assert (0 <= M)%R by (pose proof (Rabs_pos p); pose proof (Rabs_pos q); lra).
  apply Rle_trans with (2 * bpow radix2 1000)%R.
  - assert (1 <= bpow radix2 1000)%R by (change 1%R with (bpow radix2 0); apply bpow_le; lia). nra.
  - change 2%R with (bpow radix2 1). rewrite <- bpow_plus. apply bpow_le. lia.
Qed.
Lemma le1005 x : (x <= bpow radix2 1000)%R -> (x <= bpow radix2 1005)%R.
Proof. intros H. eapply Rle_trans; [exact H|apply bpow_le; lia]. Qed.
Lemma le1010 x : (x <= bpow radix2 1005)%R -> (x <= bpow radix2 1010)%R.
Proof. intros H. eapply Rle_trans; [exact H|apply bpow_le; lia]. Qed.

Lemma cmul_val x y : finite64 x -> finite64 y -> (Cmod (cval x) * Cmod (cval y) <= bpow radix2 1000)%R ->
  finite64 (cmul x y) /\ cval (cmul x y) = cm (cval x) (cval y) /\
  (Cmod (cval (cmul x y) - cval x * cval y)%C <= 3 * eps * (Cmod (cval x) * Cmod (cval y)) + 4 * eta)%R.
Proof.
  destruct x as [a b], y as [c d]. intros [Fa Fb] [Fc Fd] H. cbn [fst snd] in *. unfold cval, cm in *. cbn [fst snd] in *.
  set (A := B2R a) in *. set (B := B2R b) in *. set (D := B2R c) in *. set (E := B2R d) in *.
  pose proof (cs_le A B D E) as H1. pose proof (cs_le' A B D E) as H2. set (M := (Cmod (A, B) * Cmod (D, E))%R) in *.
  pose proof eps_pos. pose proof eta_pos.
  assert (M0 : (0 <= M)%R) by (apply Rmult_le_pos; apply Cmod_ge_0).
  pose proof (Rabs_pos (A * D)). pose proof (Rabs_pos (B * E)). pose proof (Rabs_pos (A * E)). pose proof (Rabs_pos (B * D)).
  destruct (mul_err a c Fa Fc) as [F1 V1]; [fold A D; apply le1005; lra|].
  destruct (mul_err b d Fb Fd) as [F2 V2]; [fold B E; apply le1005; lra|].
  destruct (mul_err a d Fa Fd) as [F3 V3]; [fold A E; apply le1005; lra|].
  destruct (mul_err b c Fb Fc) as [F4 V4]; [fold B D; apply le1005; lra|].
  fold A D in V1. fold B E in V2. fold A E in V3. fold B D in V4.
  assert (N2 : rnd (- (B * E)) = (- rnd (B * E))%R) by apply rnd_opp.
  destruct (comp_err (A * D) (- (B * E)) M) as [C1 C2]; [rewrite Rabs_Ropp; lra|exact H|]. rewrite N2 in C1, C2.
  destruct (comp_err (A * E) (B * D) M) as [C3 C4]; [lra|exact H|].
  destruct (sub_err (fmul a c) (fmul b d) F1 F2) as [F5 V5]; [rewrite V1, V2; apply le1010; exact C1|].
  destruct (add_err (fmul a d) (fmul b c) F3 F4) as [F6 V6]; [rewrite V3, V4; apply le1010; exact C3|].
  rewrite V1, V2 in V5. rewrite V3, V4 in V6.
  unfold cmul. cbn [fst snd]. split; [split; assumption|]. split; [now rewrite V5, V6|].
  assert (K : forall s t, (Rabs (t - s) <= eps * M + 2 * eta)%R -> (Rabs s <= M)%R -> (Rabs (rnd t - t) <= eps * Rabs t)%R ->
      (Rabs (rnd t - s) <= 21 / 10 * eps * M + 22 / 10 * eta)%R).
  { intros s t Ht Hs Hr. replace (rnd t - s)%R with ((rnd t - t) + (t - s))%R by ring. eapply Rle_trans; [apply Rabs_triang|].
    assert (Rabs t <= M + (eps * M + 2 * eta))%R by (replace t with ((t - s) + s)%R by ring; eapply Rle_trans; [apply Rabs_triang|lra]).
    assert (eps * Rabs t <= eps * (M + (eps * M + 2 * eta)))%R by (apply Rmult_le_compat_l; lra).
    assert (eps * eps * M <= / 1000000 * eps * M)%R by (apply Rmult_le_compat_r; [exact M0|]; apply Rmult_le_compat_r; lra).
    assert (eps * eta <= / 1000000 * eta)%R by (apply Rmult_le_compat_r; lra).
    assert (X : (eps * (M + (eps * M + 2 * eta)) = eps * M + eps * eps * M + 2 * (eps * eta))%R) by ring. rewrite X in *.
    assert (0 <= eps * M)%R by (apply Rmult_le_pos; lra).
    assert (Y : (/ 1000000 * eps * M = / 1000000 * (eps * M))%R) by ring. rewrite Y in *.
    replace (21 / 10 * eps * M)%R with (21 / 10 * (eps * M))%R by ring. lra. }
  apply Rle_trans with (1415 / 1000 * (21 / 10 * eps * M + 22 / 10 * eta))%R.
  - apply Cmod_sqrt2; cbn [fst snd Cminus Cplus Copp Cmult].
    + rewrite V5. apply (K (A * D - B * E)%R (rnd (A * D) - rnd (B * E))%R).
      * exact C2.
      * eapply Rle_trans; [apply Rabs_triang|]. rewrite Rabs_Ropp. lra.
      * rewrite <- V1, <- V2. pose proof (rnd_add (fmul a c) (Bopp (fmul b d))) as R. rewrite B2R_Bopp in R. exact R.
    + rewrite V6. apply (K (A * E + B * D)%R (rnd (A * E) + rnd (B * D))%R).
      * exact C4.
      * eapply Rle_trans; [apply Rabs_triang|]. lra.
      * rewrite <- V3, <- V4. apply rnd_add.
  - assert (0 <= eps * M)%R by (apply Rmult_le_pos; lra). lra.
Qed.
(** symmetries of the rounded product *)
Lemma cm_conj X Y : cm (Cconj X) (Cconj Y) = Cconj (cm X Y).
Proof.
  unfold cm, Cconj. cbn [fst snd]. replace (- snd X * - snd Y)%R with (snd X * snd Y)%R by ring.
  replace (fst X * - snd Y)%R with (- (fst X * snd Y))%R by ring. replace (- snd X * fst Y)%R with (- (snd X * fst Y))%R by ring.
  rewrite !(rnd_opp (fst X * snd Y)), !(rnd_opp (snd X * fst Y)), <- Ropp_plus_distr, rnd_opp. reflexivity.
Qed.
Lemma cm_oppl X Y : cm (Copp X) Y = Copp (cm X Y).
Proof.
  unfold cm, Copp. cbn [fst snd]. rewrite <- !Ropp_mult_distr_l, !rnd_opp.
  replace (- rnd (fst X * fst Y) - - rnd (snd X * snd Y))%R with (- (rnd (fst X * fst Y) - rnd (snd X * snd Y)))%R by ring.
  rewrite <- Ropp_plus_distr, !rnd_opp. reflexivity.
Qed.
Lemma cm_oppr X Y : cm X (Copp Y) = Copp (cm X Y).
Proof.
  unfold cm, Copp. cbn [fst snd]. rewrite <- !Ropp_mult_distr_r, !rnd_opp.
  replace (- rnd (fst X * fst Y) - - rnd (snd X * snd Y))%R with (- (rnd (fst X * fst Y) - rnd (snd X * snd Y)))%R by ring.
  rewrite <- Ropp_plus_distr, !rnd_opp. reflexivity.
Qed.
Lemma cm_0l Y : cm (RtoC 0) Y = RtoC 0.
Proof. unfold cm, RtoC. cbn [fst snd]. rewrite !Rmult_0_l, !rnd_0, Rminus_0_r, Rplus_0_r, rnd_0. reflexivity. Qed.
Lemma cm_0r X : cm X (RtoC 0) = RtoC 0.
Proof. unfold cm, RtoC. cbn [fst snd]. rewrite !Rmult_0_r, !rnd_0, Rminus_0_r, Rplus_0_r, rnd_0. reflexivity. Qed.
Lemma cm_real X w : cm X (RtoC w) = (rnd (fst X * w), rnd (snd X * w)).
Proof.
  unfold cm, RtoC. cbn [fst snd]. rewrite !Rmult_0_r, !rnd_0, Rminus_0_r, Rplus_0_l.
  assert (R : forall x, rnd (rnd x) = rnd x).
  { intros x. apply round_generic; [typeclasses eauto|]. change (SpecFloat.fexp 53 1024) with (FLT_exp (-1074) 53). apply generic_format_round; typeclasses eauto. }
  now rewrite !R.
Qed.
Lemma cconj64_val z : cval (cconj64 z) = Cconj (cval z).
Proof. unfold cval, cconj64, Cconj, fneg. cbn [fst snd]. now rewrite B2R_Bopp. Qed.
Lemma cconj64_fin z : finite64 z -> finite64 (cconj64 z).
Proof. intros [A B]. split; [exact A|]. unfold cconj64, fneg. cbn [snd]. now rewrite is_finite_Bopp. Qed.
Lemma cval_creal x : cval (creal x) = RtoC (B2R x).
Proof. reflexivity. Qed.
Lemma fin_creal x : is_finite x = true -> finite64 (creal x).
Proof. intros H. now split. Qed.

(** ** sums *)
Definition lsum (l : list R) : R := fold_right Rplus 0%R l.
Lemma lsum_app a b : lsum (a ++ b) = (lsum a + lsum b)%R.
Proof. induction a as [|x a IH]; cbn [app lsum fold_right]; [unfold lsum; cbn; ring|]. fold (lsum (a ++ b)). rewrite IH. unfold lsum. cbn. ring. Qed.
Lemma lsum_perm a b : Permutation a b -> lsum a = lsum b.
Proof. induction 1; cbn [lsum fold_right] in *; unfold lsum in *; cbn in *; lra. Qed.
Lemma lsum_pos l : (forall x, In x l -> 0 <= x)%R -> (0 <= lsum l)%R.
Proof. induction l as [|x l IH]; intros H; [unfold lsum; cbn; lra|]. cbn. fold (lsum l). specialize (IH (fun y Hy => H y (or_intror Hy))). specialize (H x (or_introl eq_refl)). lra. Qed.
Definition asum (l : list f64) : R := lsum (map (fun x => Rabs (B2R x)) l).
Definition vsum (l : list f64) : R := lsum (map (fun x => B2R (x : f64)) l).
Lemma asum_pos l : (0 <= asum l)%R.
Proof. apply lsum_pos. intros x Hx. apply in_map_iff in Hx as (y & <- & _). apply Rabs_pos. Qed.
Lemma vsum_le l : (Rabs (vsum l) <= asum l)%R.
Proof.
  induction l as [|x l IH]; [unfold vsum, asum, lsum; cbn; rewrite Rabs_R0; lra|].
  unfold vsum, asum, lsum in *. cbn in *. eapply Rle_trans; [apply Rabs_triang|]. lra.
Qed.
Definition gr (h : nat) : R := ((1 + eps) ^ h)%R.
Lemma gr_ge1 h : (1 <= gr h)%R.
Proof. unfold gr. apply pow_R1_Rle. pose proof eps_pos. lra. Qed.
Lemma gr_le h h' : (h <= h')%nat -> (gr h <= gr h')%R.
Proof. intros. unfold gr. apply Rle_pow; [pose proof eps_pos; lra|assumption]. Qed.

(** x is a sum of value V, of numbers of total modulus S, with the error of h nested additions *)
Definition sumb (h : nat) (S V : R) (x : f64) : Prop :=
  is_finite x = true /\ (Rabs V <= S)%R /\ (Rabs (B2R x - V) <= (gr h - 1) * S)%R.
Lemma sumb_mono h h' S V x : (h <= h')%nat -> sumb h S V x -> sumb h' S V x.
Proof.
  intros H (A & B & C). split; [exact A|]. split; [exact B|]. eapply Rle_trans; [exact C|]. pose proof (gr_le h h' H). pose proof (Rabs_pos V).
  apply Rmult_le_compat_r; lra.
Qed.
Lemma sumb_one x : is_finite x = true -> sumb 0 (Rabs (B2R x)) (B2R x) x.
Proof. intros F. split; [exact F|]. split; [lra|]. rewrite Rminus_diag_eq, Rabs_R0 by reflexivity. unfold gr. rewrite pow_O. lra. Qed.
Lemma sumb_0 : sumb 0 0 0 (fint 0).
Proof. split; [reflexivity|]. change (B2R (fint 0)) with 0%R. rewrite Rminus_0_r, Rabs_R0. lra. Qed.
Lemma sumb_val0 h V x : sumb h 0 V x -> V = 0%R /\ B2R x = 0%R.
Proof.
  intros (_ & A & B). rewrite Rmult_0_r in B. assert (V = 0%R) by (apply Rabs_eq_0; pose proof (Rabs_pos V); lra). split; [assumption|]. subst V.
  rewrite Rminus_0_r in B. apply Rabs_eq_0. pose proof (Rabs_pos (B2R x)). lra.
Qed.
Lemma sumb_add h S S' V V' x y : sumb h S V x -> sumb h S' V' y -> (gr h <= 2)%R -> (S + S' <= bpow radix2 1003)%R ->
  sumb (Datatypes.S h) (S + S') (V + V') (fadd x y).
Proof.
  intros (Fx & V1 & Ex) (Fy & V2 & Ey) Gh HA. pose proof eps_pos as E0. pose proof (gr_ge1 h) as G1.
  assert (GS : gr (Datatypes.S h) = ((1 + eps) * gr h)%R) by reflexivity.
  assert (D : (Rabs (B2R x + B2R y - (V + V')) <= (gr h - 1) * (S + S'))%R).
  { replace (B2R x + B2R y - (V + V'))%R with ((B2R x - V) + (B2R y - V'))%R by ring. eapply Rle_trans; [apply Rabs_triang|]. lra. }
  assert (VV : (Rabs (V + V') <= S + S')%R) by (eapply Rle_trans; [apply Rabs_triang|]; lra).
  assert (T : (Rabs (B2R x + B2R y) <= gr h * (S + S'))%R).
  { replace (B2R x + B2R y)%R with ((B2R x + B2R y - (V + V')) + (V + V'))%R by ring. eapply Rle_trans; [apply Rabs_triang|]. lra. }
  assert (S0 : (0 <= S + S')%R) by (eapply Rle_trans; [apply Rabs_pos|exact VV]).
  destruct (add_err x y Fx Fy) as [F W].
  { eapply Rle_trans; [exact T|]. apply Rle_trans with (2 * bpow radix2 1003)%R; [apply Rmult_le_compat; lra|].
    change 2%R with (bpow radix2 1). rewrite <- bpow_plus. apply bpow_le. lia. }
  split; [exact F|]. split; [exact VV|]. rewrite W, GS. pose proof (rnd_add x y) as R. set (t := (B2R x + B2R y)%R) in *.
  replace (rnd t - (V + V'))%R with ((rnd t - t) + (t - (V + V')))%R by ring. eapply Rle_trans; [apply Rabs_triang|].
  assert (eps * Rabs t <= eps * (gr h * (S + S')))%R by (apply Rmult_le_compat_l; lra). lra.
Qed.
(** adding a zero is exact *)
Lemma sumb_add0 h S V V' x y : sumb h S V x -> sumb h 0 V' y -> (gr h <= 2)%R -> (S <= bpow radix2 1003)%R -> sumb h S (V + V') (fadd x y).
Proof.
  intros Hx Hy Gh HA. destruct (sumb_val0 _ _ _ Hy) as [-> Y0]. rewrite Rplus_0_r.
  destruct (sumb_add h S 0 V 0 x y) as (F & _ & _); auto; [rewrite Rplus_0_r; exact HA|].
  split; [exact F|]. destruct Hx as (Fx & V1 & Ex). split; [exact V1|].
  destruct (add_err x y Fx (proj1 Hy)) as [_ W].
  { rewrite Y0, Rplus_0_r. pose proof (gr_ge1 h). assert (0 <= S)%R by (eapply Rle_trans; [apply Rabs_pos|exact V1]).
    apply Rle_trans with (2 * bpow radix2 1003)%R.
    - replace (B2R x) with ((B2R x - V) + V)%R by ring. eapply Rle_trans; [apply Rabs_triang|].
      assert ((gr h - 1) * S <= 1 * bpow radix2 1003)%R by (apply Rmult_le_compat; lra). lra.
    - change 2%R with (bpow radix2 1). rewrite <- bpow_plus. apply bpow_le. lia. }
  rewrite W, Y0, Rplus_0_r, rnd_id. exact Ex.
Qed.
Lemma sumb_add0' h S V V' x y : sumb h 0 V x -> sumb h S V' y -> (gr h <= 2)%R -> (S <= bpow radix2 1003)%R -> sumb h S (V + V') (fadd x y).
Proof.
  intros Hx Hy Gh HA. destruct (sumb_val0 _ _ _ Hx) as [-> X0]. rewrite Rplus_0_l.
  destruct (sumb_add h 0 S 0 V' x y) as (F & _ & _); auto; [rewrite Rplus_0_l; exact HA|].
  split; [exact F|]. destruct Hy as (Fy & V1 & Ey). split; [exact V1|].
  destruct (add_err x y (proj1 Hx) Fy) as [_ W].
  { rewrite X0, Rplus_0_l. pose proof (gr_ge1 h). assert (0 <= S)%R by (eapply Rle_trans; [apply Rabs_pos|exact V1]).
    apply Rle_trans with (2 * bpow radix2 1003)%R.
    - replace (B2R y) with ((B2R y - V') + V')%R by ring. eapply Rle_trans; [apply Rabs_triang|].
      assert ((gr h - 1) * S <= 1 * bpow radix2 1003)%R by (apply Rmult_le_compat; lra). lra.
    - change 2%R with (bpow radix2 1). rewrite <- bpow_plus. apply bpow_le. lia. }
  rewrite W, X0, Rplus_0_l, rnd_id. exact Ey.
Qed.
Lemma adds_sumb l x : adds l x -> (forall y, In y l -> is_finite y = true) -> (gr (length l) <= 2)%R -> (asum l <= bpow radix2 1003)%R ->
  sumb (Nat.pred (length l)) (asum l) (vsum l) x.
Proof.
  intros H. induction H as [|x|xs ys zs x y H1 IH1 H2 IH2 P]; intros HF Hg HA.
  - apply sumb_0.
  - unfold asum, vsum, lsum. cbn. rewrite !Rplus_0_r. apply sumb_one, HF. now left.
  - assert (EA : asum zs = (asum xs + asum ys)%R).
    { unfold asum. rewrite <- lsum_app, <- map_app. symmetry. apply lsum_perm, Permutation_map, P. }
    assert (EV : vsum zs = (vsum xs + vsum ys)%R).
    { unfold vsum. rewrite <- lsum_app, <- map_app. symmetry. apply lsum_perm, Permutation_map, P. }
    assert (EL : length zs = (length xs + length ys)%nat) by (rewrite <- app_length; symmetry; now apply Permutation_length).
    rewrite EA, EV, EL in *. pose proof (asum_pos xs) as A0. pose proof (asum_pos ys) as A1.
    assert (HF1 : forall z, In z xs -> is_finite z = true) by (intros z Hz; apply HF; eapply Permutation_in; [exact P|]; apply in_or_app; now left).
    assert (HF2 : forall z, In z ys -> is_finite z = true) by (intros z Hz; apply HF; eapply Permutation_in; [exact P|]; apply in_or_app; now right).
    pose proof (gr_le (length xs) (length xs + length ys) ltac:(lia)). pose proof (gr_le (length ys) (length xs + length ys) ltac:(lia)).
    specialize (IH1 HF1 ltac:(lra) ltac:(lra)). specialize (IH2 HF2 ltac:(lra) ltac:(lra)).
    destruct xs as [|x0 xs].
    { change (asum []) with 0%R in *. rewrite Rplus_0_l. cbn [length Nat.add]. apply sumb_add0'; auto; try lra.
      - apply sumb_mono with (2 := IH1). cbn. lia.
      - pose proof (gr_le (Nat.pred (length ys)) (length ys) ltac:(lia)). cbn [length Nat.add] in Hg. lra. }
    destruct ys as [|y0 ys].
    { change (asum []) with 0%R in *. rewrite Rplus_0_r in *. cbn [length]. rewrite Nat.add_0_r. apply sumb_add0; auto; try lra.
      - apply sumb_mono with (2 := IH2). cbn. lia.
      - pose proof (gr_le (Nat.pred (Datatypes.S (length xs))) (length (x0 :: xs)) ltac:(cbn; lia)). cbn [length] in *. lra. }
    cbn [length Nat.pred] in *. set (h := (length xs + length ys)%nat). replace (Nat.pred (Datatypes.S (length xs) + Datatypes.S (length ys))) with (Datatypes.S h) by (unfold h; lia).
    apply sumb_add; auto.
    + apply sumb_mono with (2 := IH1). unfold h. lia.
    + apply sumb_mono with (2 := IH2). unfold h. lia.
    + pose proof (gr_le h (Datatypes.S (length xs) + Datatypes.S (length ys)) ltac:(unfold h; lia)). lra.
Qed.

(** ** complex sums *)
Definition csumb (h : nat) (M : R) (V : C) (z : c64) : Prop :=
  exists S T, (Cmod (S, T) <= M)%R /\ sumb h S (fst V) (fst z) /\ sumb h T (snd V) (snd z).
Lemma sumb_S h S V x : sumb h S V x -> (0 <= S)%R.
Proof. intros (_ & A & _). eapply Rle_trans; [apply Rabs_pos|exact A]. Qed.
Lemma parts_le S T M : (0 <= S)%R -> (0 <= T)%R -> (Cmod (S, T) <= M)%R -> (S <= M /\ T <= M)%R.
Proof.
  intros HS HT H. split; eapply Rle_trans; [|exact H| |exact H].
  - rewrite <- (Rabs_pos_eq S) at 1 by exact HS. eapply Rle_trans; [|apply (Rmax_Cmod (S, T))]. apply Rmax_l.
  - rewrite <- (Rabs_pos_eq T) at 1 by exact HT. eapply Rle_trans; [|apply (Rmax_Cmod (S, T))]. apply Rmax_r.
Qed.
Lemma csumb_mono h h' M M' V z : (h <= h')%nat -> (M <= M')%R -> csumb h M V z -> csumb h' M' V z.
Proof. intros H HM (S & T & A & B & C). exists S, T. split; [lra|]. split; eapply sumb_mono; eauto. Qed.
Lemma csumb_0 : csumb 0 0 (RtoC 0) (creal (fint 0)).
Proof. exists 0%R, 0%R. split; [|split; apply sumb_0]. rewrite (Cmod_0 : Cmod (0, 0)%R = 0%R). lra. Qed.
Lemma csumb_add h M M' V V' z w : csumb h M V z -> csumb h M' V' w -> (gr h <= 2)%R -> (M + M' <= bpow radix2 1003)%R ->
  csumb (Datatypes.S h) (M + M') (V + V')%C (cadd z w).
Proof.
  intros (S & T & A & B & C) (S' & T' & A' & B' & C') Hg HM. exists (S + S')%R, (T + T')%R.
  pose proof (sumb_S _ _ _ _ B). pose proof (sumb_S _ _ _ _ C). pose proof (sumb_S _ _ _ _ B'). pose proof (sumb_S _ _ _ _ C').
  assert (Q : (Cmod (S + S', T + T')%R <= M + M')%R) by (eapply Rle_trans; [apply (Cmod_triangle (S, T) (S', T'))|]; lra).
  split; [exact Q|]. destruct (parts_le (S + S') (T + T') (M + M')) as [Q1 Q2]; try lra.
  unfold cadd. cbn [fst snd Cplus]. split; apply sumb_add; auto; lra.
Qed.
Lemma csumb_err h M V z : csumb h M V z -> finite64 z /\ (Cmod (cval z - V)%C <= (gr h - 1) * M)%R.
Proof.
  intros (S & T & A & B & C). pose proof (sumb_S _ _ _ _ B). pose proof (sumb_S _ _ _ _ C).
  destruct B as (F1 & _ & E1), C as (F2 & _ & E2). split; [split; assumption|]. pose proof (gr_ge1 h).
  apply Rle_trans with (Cmod (RtoC (gr h - 1) * (S, T))%C).
  - unfold Cmod. apply sqrt_le_1_alt. cbn [fst snd Cminus Cplus Copp cval Cmult RtoC].
    rewrite !Rmult_0_l, Rminus_0_r, Rplus_0_r. apply Rplus_le_compat.
    + rewrite <- (pow2_abs (B2R (fst z) + - fst V)). apply pow_incr. split; [apply Rabs_pos|exact E1].
    + rewrite <- (pow2_abs (B2R (snd z) + - snd V)). apply pow_incr. split; [apply Rabs_pos|exact E2].
  - rewrite Cmod_mult, Cmod_R, Rabs_pos_eq by lra. apply Rmult_le_compat_l; lra.
Qed.
(** the values and moduli of a list *)
Definition clsum (l : list c64) : C := fold_right Cplus (RtoC 0) (map cval l).
Definition cabs (l : list c64) : R := lsum (map (fun z => Cmod (cval z)) l).
Lemma cabs_pos l : (0 <= cabs l)%R.
Proof. apply lsum_pos. intros x Hx. apply in_map_iff in Hx as (y & <- & _). apply Cmod_ge_0. Qed.
Lemma Cmod_abs x y : Cmod (Rabs x, Rabs y) = Cmod (x, y).
Proof. unfold Cmod. cbn [fst snd]. now rewrite !pow2_abs. Qed.
Lemma parts_cabs l : (Cmod (asum (map fst l), asum (map snd l)) <= cabs l)%R.
Proof.
  induction l as [|z l IH]; [unfold asum, cabs, lsum; cbn; rewrite (Cmod_0 : Cmod (0, 0)%R = 0%R); lra|].
  change (cabs (z :: l)) with (Cmod (cval z) + cabs l)%R. cbn [map].
  eapply Rle_trans; [apply (Cmod_triangle (Rabs (B2R (fst z)), Rabs (B2R (snd z))) (asum (map fst l), asum (map snd l)))|].
  rewrite Cmod_abs. unfold cval at 1. lra.
Qed.
Lemma clsum_parts l : clsum l = (vsum (map fst l), vsum (map snd l)).
Proof.
  induction l as [|z l IH]; [reflexivity|]. unfold clsum, vsum, lsum in *. cbn [map fold_right] in *. rewrite IH. reflexivity.
Qed.
Lemma csum_csumb (fsum : list f64 -> f64) l : (forall xs, adds xs (fsum xs)) -> (forall z, In z l -> finite64 z) ->
  (gr (length l) <= 2)%R -> (cabs l <= bpow radix2 1003)%R -> csumb (Nat.pred (length l)) (cabs l) (clsum l) (csum64 fsum l).
Proof.
  intros Hf HF Hg HM. exists (asum (map fst l)), (asum (map snd l)). split; [apply parts_cabs|].
  destruct (parts_le _ _ _ (asum_pos (map fst l)) (asum_pos (map snd l)) (parts_cabs l)) as [P1 P2].
  rewrite clsum_parts. unfold csum64. cbn [fst snd]. split.
  - replace (length l) with (length (map fst l)) by apply map_length. apply adds_sumb; [apply Hf| |rewrite map_length; exact Hg|lra].
    intros y Hy. apply in_map_iff in Hy as (z & <- & Hz). now apply HF.
  - replace (length l) with (length (map snd l)) by apply map_length. apply adds_sumb; [apply Hf| |rewrite map_length; exact Hg|lra].
    intros y Hy. apply in_map_iff in Hy as (z & <- & Hz). now apply HF.
Qed.
(** growth of the error *)
Lemma gr_bound h : (INR h * eps <= / 2)%R -> (gr h <= 1 + 2 * (INR h * eps))%R.
Proof.
  intros H. pose proof eps_pos. unfold gr. apply Rle_trans with (exp (INR h * eps)).
  - rewrite <- (Rpower_pow h (1 + eps)) by lra. unfold Rpower. apply exp_mono, Rmult_le_compat_l; [apply pos_INR|].
    pose proof (exp_ineq1_le (ln (1 + eps))). rewrite exp_ln in * by lra.
    apply Rle_trans with (1 + eps - 1)%R; [|lra]. lra.
  - replace (INR h * eps)%R with (- - (INR h * eps))%R at 1 by ring. rewrite exp_Ropp.
    assert (0 <= INR h * eps)%R by (apply Rmult_le_pos; [apply pos_INR|lra]). set (e := (INR h * eps)%R) in *.
    apply Rle_trans with (/ (1 - e))%R.
    + apply Rinv_le_contravar; [lra|]. pose proof (exp_ineq1_le (- e)). lra.
    + apply Rmult_le_reg_r with (1 - e)%R; [lra|]. rewrite Rinv_l by lra. nra.
Qed.
