(** Rounding errors of the quadrature at the default dilation lam = 2 *)

From Coq Require Import ZArith Reals List Bool Lia Lra Psatz.
From Coquelicot Require Import Coquelicot.
From Flocq Require Import Core Relative IEEE754.BinarySingleNaN.
From Verif Require Import Py PyFacts Spec SpecQuad QuadFacts QuadProps ModelFloat FloatProps SpecFp FloatFacts FloatDefault FiltersProps FrameProps.
Import ListNotations.
Open Scope Z_scope.

#[local] Existing Instance gt53.
#[local] Existing Instance vexp.
#[local] Existing Instance mexp.

(** ** the integrand *)

Lemma sg2 t : sg 2 t = (4 * t - 3)%R.
Proof. unfold sg. field. Qed.
Lemma tiling2_eq t : tiling 2 t = (bump (4 * t - 3) / t)%R.
Proof. unfold tiling. fold (sg 2 t). now rewrite sg2. Qed.
Lemma tiling_le2 t : (/ 2 <= t <= 1)%R -> (0 <= tiling 2 t <= 2 / 7)%R.
Proof.
  intros Ht. split; [apply tiling_pos; lra|]. rewrite tiling2_eq.
  pose proof (bump_le (4 * t - 3)). pose proof exp2_le. pose proof (bump_pos (4 * t - 3)).
  assert (0 < / t <= 2)%R.
  { split; [apply Rinv_0_lt_compat; lra|]. rewrite <- (Rinv_inv 2). apply Rinv_le_contravar; lra. }
  unfold Rdiv at 1. apply Rle_trans with (/ 7 * 2)%R; [apply Rmult_le_compat; lra|lra].
Qed.
Lemma tiling_near_end t : (/ 2 <= t <= 1)%R -> (tiling 2 t <= 16 * (1 - t))%R /\ (tiling 2 t <= 16 * (t - / 2))%R.
Proof.
  intros Ht. rewrite tiling2_eq. pose proof (bump_sq_le (4 * t - 3)) as B. pose proof (bump_pos (4 * t - 3)).
  rewrite Rabs_pos_eq in B by nra.
  assert (0 < / t <= 2)%R.
  { split; [apply Rinv_0_lt_compat; lra|]. rewrite <- (Rinv_inv 2). apply Rinv_le_contravar; lra. }
  assert (bump (4 * t - 3) / t <= bump (4 * t - 3) * 2)%R by (unfold Rdiv; apply Rmult_le_compat_l; lra).
  split; nra.
Qed.
Lemma tiling1_le2 t : (/ 2 < t < 1)%R -> (Rabs (tiling1 2 t) <= 16)%R.
Proof.
  intros Ht. unfold tiling1. assert (Hs : sl 2 = 4%R) by (unfold sl; field). rewrite Hs.
  pose proof (bump1_le (sg 2 t) (sg_in 2 t ltac:(lra) ltac:(lra))) as B1. pose proof (bump_le (sg 2 t)) as B. pose proof (bump_pos (sg 2 t)) as B0.
  pose proof exp2_le as E.
  assert (I : (0 < / t <= 2)%R).
  { split; [apply Rinv_0_lt_compat; lra|]. rewrite <- (Rinv_inv 2). apply Rinv_le_contravar; lra. }
  assert (I2 : (0 <= / t ^ 2 <= 4)%R).
  { replace (/ t ^ 2)%R with (/ t * / t)%R by (field; lra). split; [apply Rmult_le_pos; lra|].
    replace 4%R with (2 * 2)%R by ring. apply Rmult_le_compat; lra. }
  eapply Rle_trans; [apply Rabs_triang|].
  assert (A1 : (Rabs (4 * bump1 (sg 2 t) * / t) <= 14)%R).
  { rewrite !Rabs_mult, (Rabs_pos_eq 4), (Rabs_pos_eq (/ t)) by lra.
    apply Rle_trans with (4 * (4 * / 7) * 2)%R; [|lra]. apply Rmult_le_compat; try lra; pose proof (Rabs_pos (bump1 (sg 2 t))); lra. }
  assert (A2 : (Rabs (bump (sg 2 t) * - / t ^ 2) <= 1)%R).
  { rewrite Rabs_mult, Rabs_Ropp, !Rabs_pos_eq by lra. apply Rle_trans with (/ 7 * 4)%R; [apply Rmult_le_compat; lra|lra]. }
  lra.
Qed.
Lemma tiling_lip x y : (/ 2 <= x <= 1)%R -> (/ 2 <= y <= 1)%R -> (Rabs (tiling 2 x - tiling 2 y) <= 16 * Rabs (x - y))%R.
Proof.
  assert (O : forall t, (t <= / 2 \/ 1 <= t)%R -> tiling 2 t = 0%R) by (intros t Ht; apply tiling_out; lra).
  assert (W : forall x y, (/ 2 <= x)%R -> (x <= y)%R -> (y <= 1)%R -> (Rabs (tiling 2 x - tiling 2 y) <= 16 * Rabs (x - y))%R).
  { clear x y. intros x y Hx Hxy Hy. rewrite (Rabs_left1 (x - y)) by lra.
    pose proof (tiling_pos 2 x ltac:(lra)). pose proof (tiling_pos 2 y ltac:(lra)).
    destruct (Rle_lt_or_eq_dec _ _ Hx) as [Hx'|<-].
    2:{ rewrite (O (/ 2)%R) by lra. destruct (tiling_near_end y); [lra|]. rewrite Rabs_left1; lra. }
    destruct (Rle_lt_or_eq_dec _ _ Hy) as [Hy'| ->].
    2:{ rewrite (O 1%R) by lra. destruct (tiling_near_end x); [lra|]. rewrite Rabs_pos_eq; lra. }
    destruct (MVT_gen (tiling 2) x y (tiling1 2)) as (c & Hc & E).
    - intros z. rewrite Rmin_left, Rmax_right by lra. intros Hz. apply tiling_derive; lra.
    - intros z. rewrite Rmin_left, Rmax_right by lra. intros Hz.
      apply continuity_pt_filterlim, (ex_derive_continuous (tiling 2)). exists (tiling1 2 z). apply tiling_derive; lra.
    - rewrite Rmin_left, Rmax_right in Hc by lra. rewrite Rabs_minus_sym, E, Rabs_mult, (Rabs_pos_eq (y - x)) by lra.
      replace (- (x - y))%R with (y - x)%R by ring. apply Rmult_le_compat_r; [lra|]. apply tiling1_le2; lra. }
  intros Hx Hy. destruct (Rle_dec x y); [apply W; lra|]. rewrite Rabs_minus_sym, (Rabs_minus_sym x). apply W; lra.
Qed.
(** negligible next to the ends *)
Lemma exp_64 : (exp (-64) <= eps / 2)%R.
Proof.
  replace (-64)%R with (Ropp 64) by ring. rewrite exp_Ropp. assert (H : (2 ^ 64 <= exp 64)%R).
  { assert (D : forall y c, (0 <= c)%R -> (c <= exp y)%R -> (c * c <= exp (y + y))%R).
    { intros y c H0 H1. rewrite exp_plus. apply Rmult_le_compat; lra. }
    pose proof exp_1_lb. assert (H1 : (2 <= exp 1)%R) by lra.
    apply D in H1; [|lra]. apply D in H1; [|lra]. apply D in H1; [|lra]. apply D in H1; [|lra]. apply D in H1; [|lra]. apply D in H1; [|lra].
    replace 64%R with (1 + 1 + (1 + 1) + (1 + 1 + (1 + 1)) + (1 + 1 + (1 + 1) + (1 + 1 + (1 + 1))) +
      (1 + 1 + (1 + 1) + (1 + 1 + (1 + 1)) + (1 + 1 + (1 + 1) + (1 + 1 + (1 + 1)))) +
      (1 + 1 + (1 + 1) + (1 + 1 + (1 + 1)) + (1 + 1 + (1 + 1) + (1 + 1 + (1 + 1))) +
      (1 + 1 + (1 + 1) + (1 + 1 + (1 + 1)) + (1 + 1 + (1 + 1) + (1 + 1 + (1 + 1))))))%R by ring.
    eapply Rle_trans; [|exact H1]. lra. }
  apply Rle_trans with (/ 2 ^ 64)%R; [apply Rinv_le_contravar; [apply pow_lt; lra|exact H]|]. unfold eps. lra.
Qed.
Lemma tiling_tiny t : (/ 2 <= t <= 1)%R -> (1 - t <= / 256 \/ t - / 2 <= / 256)%R -> (tiling 2 t <= eps)%R.
Proof.
  intros Ht He. pose proof eps_small. destruct (Req_dec t (/ 2)) as [->|N1]; [rewrite tiling_out; lra|].
  destruct (Req_dec t 1) as [->|N2]; [rewrite tiling_out; lra|].
  assert (Hin : (/ 2 < t < 1)%R) by lra. rewrite tiling2_eq. set (s := (4 * t - 3)%R).
  assert (Hs : (s * s < 1)%R) by (unfold s; rewrite <- sg2; apply sg_in; lra).
  rewrite bump_in by exact Hs.
  assert (Hu : (0 < 1 - s * s <= / 32)%R) by (split; [lra|unfold s; destruct He; nra]).
  assert (E : (exp (- (2 / (1 - s * s))) <= eps / 2)%R).
  { apply Rle_trans with (exp (-64)); [|apply exp_64].
    destruct (Req_dec (- (2 / (1 - s * s))) (-64)) as [->|N]; [lra|]. left. apply exp_increasing.
    assert (32 <= / (1 - s * s))%R. { rewrite <- (Rinv_inv 32). apply Rinv_le_contravar; lra. }
    unfold Rdiv in *. lra. }
  assert (I : (0 < / t <= 2)%R).
  { split; [apply Rinv_0_lt_compat; lra|]. rewrite <- (Rinv_inv 2). apply Rinv_le_contravar; lra. }
  unfold Rdiv at 1. pose proof (exp_pos (- (2 / (1 - s * s)))). apply Rle_trans with (eps / 2 * 2)%R; [apply Rmult_le_compat; lra|lra].
Qed.

(** ** rounding errors of the integrand *)

Lemma exp_lip p q M : (p <= M)%R -> (q <= M)%R -> (Rabs (exp p - exp q) <= exp M * Rabs (p - q))%R.
Proof.
  assert (W : forall p q, (p <= q)%R -> (q <= M)%R -> (Rabs (exp p - exp q) <= exp M * Rabs (p - q))%R).
  { clear p q. intros p q H1 H2. rewrite !Rabs_left1; try lra.
    - replace (- (exp p - exp q))%R with (exp q * (1 - exp (p - q)))%R by (rewrite Rmult_minus_distr_l, <- exp_plus; replace (q + (p - q))%R with p by ring; ring).
      pose proof (exp_lin (p - q)). pose proof (exp_pos q).
      assert (exp q <= exp M)%R by (destruct H2 as [H2| ->]; [left; now apply exp_increasing|lra]).
      apply Rle_trans with (exp q * (- (p - q)))%R; [apply Rmult_le_compat_l; lra|apply Rmult_le_compat_r; lra].
    - assert (exp p <= exp q)%R by (destruct H1 as [H1| ->]; [left; now apply exp_increasing|lra]). lra. }
  intros Hp Hq. destruct (Rle_dec p q); [apply W; lra|]. rewrite Rabs_minus_sym, (Rabs_minus_sym p). apply W; lra.
Qed.
Lemma phi_lip u v : (0 < u <= 1)%R -> (0 < v <= 1)%R -> (Rabs (exp (-2 / u) - exp (-2 / v)) <= Rabs (u - v))%R.
Proof.
  assert (D : forall z, (0 < z)%R -> is_derive (fun z => exp (-2 / z)) z (2 * / z ^ 2 * exp (-2 / z))%R).
  { intros z Hz. auto_derive; [lra|]. unfold Rdiv. field. lra. }
  assert (B : forall z, (0 < z <= 1)%R -> (Rabs (2 * / z ^ 2 * exp (-2 / z)) <= 1)%R).
  { intros z Hz. set (w := (/ z)%R). assert (Hw : (1 <= w)%R) by (unfold w; rewrite <- Rinv_1 at 1; apply Rinv_le_contravar; lra).
    replace (2 * / z ^ 2 * exp (-2 / z))%R with (2 * (w ^ 2 * exp (- (2 * w))))%R
      by (unfold w; replace (- (2 * / z))%R with (-2 / z)%R by (field; lra); field; lra).
    assert (He : (w ^ 2 * exp (- (2 * w)) <= exp (-2))%R).
    { pose proof (exp_lin (w - 1)) as H1. replace (1 + (w - 1))%R with w in H1 by ring.
      assert (H2 : (w * w <= exp (w - 1) * exp (w - 1))%R) by (apply Rmult_le_compat; lra).
      rewrite <- exp_plus in H2. replace (exp (-2)) with (exp (w - 1 + (w - 1)) * exp (- (2 * w)))%R by (rewrite <- exp_plus; f_equal; ring).
      replace (w ^ 2)%R with (w * w)%R by ring. apply Rmult_le_compat_r; [left; apply exp_pos|exact H2]. }
    pose proof exp2_le. assert (0 <= w ^ 2 * exp (- (2 * w)))%R by (apply Rmult_le_pos; [apply pow2_ge_0|left; apply exp_pos]).
    rewrite Rabs_pos_eq; lra. }
  assert (W : forall u v, (0 < u)%R -> (u <= v)%R -> (v <= 1)%R -> (Rabs (exp (-2 / u) - exp (-2 / v)) <= Rabs (u - v))%R).
  { clear u v. intros u v Hu Huv Hv. destruct (MVT_gen (fun z => exp (-2 / z)) u v (fun z => 2 * / z ^ 2 * exp (-2 / z))%R) as (c & Hc & E).
    - intros z. rewrite Rmin_left, Rmax_right by lra. intros Hz. apply D. lra.
    - intros z. rewrite Rmin_left, Rmax_right by lra. intros Hz.
      apply continuity_pt_filterlim, (ex_derive_continuous (fun z => exp (-2 / z))). eexists. apply D. lra.
    - rewrite Rmin_left, Rmax_right in Hc by lra. rewrite Rabs_minus_sym, E, Rabs_mult, (Rabs_minus_sym u).
      rewrite <- (Rmult_1_l (Rabs (v - u))) at 2. apply Rmult_le_compat_r; [apply Rabs_pos|]. apply B. lra. }
  intros Hu Hv. destruct (Rle_dec u v); [apply W; lra|]. rewrite Rabs_minus_sym, (Rabs_minus_sym u). apply W; lra.
Qed.

(** the exponential of the computed argument *)
Lemma arg_err t : (/ 2 < t < 1)%R -> (0 < rnd (1 - rnd ((4 * t - 3) * (4 * t - 3))) <= 1)%R ->
  (Rabs (exp (fp_arg t) - bump (4 * t - 3)) <= 3 * eps)%R.
Proof.
  intros Ht Hu. unfold fp_arg. cbv zeta. set (s := (4 * t - 3)%R) in *.
  assert (Hs : (s * s < 1)%R) by (unfold s; rewrite <- sg2; apply sg_in; lra).
  assert (H0 : (0 <= s * s)%R) by nra. pose proof eps_small as He.
  set (q := rnd (s * s)) in *. assert (Eq : (Rabs (q - s * s) <= eps)%R) by (apply rnd_abs1; rewrite Rabs_pos_eq; lra).
  assert (Hq : (0 <= q <= 1)%R). { unfold q. split; [now apply rnd_pos|]. apply (rnd_le_f _ (IZR 1)); [apply (format_int 1); lia|lra]. }
  set (u := rnd (1 - q)) in *. assert (Eu : (Rabs (u - (1 - q)) <= eps)%R) by (apply rnd_abs1; rewrite Rabs_pos_eq; lra).
  assert (A1 : (Rabs (exp (-2 / u) - bump s) <= 2 * eps)%R).
  { rewrite bump_in by exact Hs. replace (- (2 / (1 - s * s)))%R with (-2 / (1 - s * s))%R by (field; lra).
    eapply Rle_trans; [apply phi_lip; lra|]. apply Rabs_le_inv in Eq, Eu. apply Rabs_le. lra. }
  set (x := (-2 / u)%R) in *.
  assert (Iu : (1 <= / u)%R) by (rewrite <- Rinv_1 at 1; apply Rinv_le_contravar; lra).
  assert (Hx : (x <= -2)%R) by (unfold x, Rdiv; lra).
  assert (A2 : (Rabs (rnd x - x) <= eps * - x)%R).
  { rewrite <- (Rabs_left1 x) by lra. apply rnd_rel. rewrite Rabs_left1 by lra.
    apply Rle_trans with (bpow radix2 0); [apply bpow_le; lia|]. change (bpow radix2 0) with 1%R. lra. }
  assert (A3 : (Rabs (exp (rnd x) - exp x) <= eps)%R).
  { apply Rabs_le_inv in A2. eapply Rle_trans; [apply (exp_lip _ _ (x / 2)); nra|].
    assert (Z : (- x * exp (x / 2) <= 1)%R).
    { pose proof (exp_tangent (- (x / 2))) as T. pose proof exp_1_lb. set (z := (- (x / 2))%R) in *.
      replace (x / 2)%R with (- z)%R by (unfold z; lra). replace (- x)%R with (2 * z)%R by (unfold z; lra).
      assert (Hz : (1 <= z)%R) by (unfold z; lra). rewrite exp_Ropp. apply Rmult_le_reg_r with (exp z); [apply exp_pos|].
      pose proof (exp_pos z). rewrite Rmult_assoc, Rinv_l by lra. nra. }
    apply Rle_trans with (exp (x / 2) * (eps * - x))%R; [apply Rmult_le_compat_l; [left; apply exp_pos|apply Rabs_le; lra]|].
    replace (exp (x / 2) * (eps * - x))%R with (eps * (- x * exp (x / 2)))%R by ring.
    rewrite <- (Rmult_1_r eps) at 2. apply Rmult_le_compat_l; lra. }
  apply Rabs_le_inv in A1, A3. apply Rabs_le. lra.
Qed.

Lemma point_acc fexp t : accurate_exp fexp -> is_finite t = true -> (/ 2 < B2R t < 1)%R ->
  exists f, tiling_integrand_fp fexp t (fint 2) = Ok f /\ is_finite f = true /\ (0 <= B2R f <= 3 / 7)%R /\
    (Rabs (B2R f - tiling 2 (B2R t)) <= 9 * eps)%R.
Proof.
  intros Hf F Ht. destruct (point2 t F Ht) as (e & Ee & Fe & Be & Re). rewrite integrand_expo, Ee. cbn [bind].
  destruct (Hf e Fe) as (F1 & P1 & A1); [lra|]. rewrite <- eps_bpow in A1. pose proof eps_small as He.
  assert (Hu : (0 < rnd (1 - rnd ((4 * B2R t - 3) * (4 * B2R t - 3))) <= 1)%R) by (apply (u_range t); auto).
  pose proof (arg_err (B2R t) Ht Hu) as A2. rewrite <- Be in A2.
  set (fe := B2R (fexp e)) in *. set (b := bump (4 * B2R t - 3)) in *.
  assert (A3 : (Rabs (fe - b) <= 4 * eps)%R) by (apply Rabs_le_inv in A1, A2; apply Rabs_le; lra).
  pose proof (bump_le (4 * B2R t - 3)) as Hb. fold b in Hb. pose proof exp2_le. pose proof (bump_pos (4 * B2R t - 3)) as Hb0. fold b in Hb0.
  assert (A3' := A3). apply Rabs_le_inv in A3'.
  assert (I : (0 < / B2R t <= 2)%R).
  { split; [apply Rinv_0_lt_compat; lra|]. rewrite <- (Rinv_inv 2). apply Rinv_le_contravar; lra. }
  assert (Hq : (0 <= fe / B2R t <= 2 / 7 + 8 * eps)%R).
  { unfold Rdiv at 1 2. split; [apply Rmult_le_pos; lra|]. apply Rle_trans with ((/ 7 + 4 * eps) * 2)%R; [apply Rmult_le_compat; lra|lra]. }
  destruct (fdiv_ok (fexp e) t F1) as [F2 E2]; [lra| |].
  { apply big. fold fe. rewrite Rabs_pos_eq by lra. change (2 ^ 53) with 9007199254740992. lra. }
  fold fe in E2.
  assert (A4 : (Rabs (B2R (fdiv (fexp e) t) - fe / B2R t) <= eps)%R) by (rewrite E2; apply rnd_abs1; rewrite Rabs_pos_eq; lra).
  eexists. split; [reflexivity|]. split; [exact F2|]. split.
  - apply Rabs_le_inv in A4. split; [rewrite E2; now apply rnd_pos|lra].
  - rewrite tiling2_eq. fold b.
    assert (A5 : (Rabs (fe / B2R t - b / B2R t) <= 8 * eps)%R).
    { unfold Rdiv. rewrite <- Rmult_minus_distr_r, Rabs_mult, (Rabs_pos_eq (/ B2R t)) by lra.
      apply Rle_trans with (4 * eps * 2)%R; [apply Rmult_le_compat; try lra; apply Rabs_pos|lra]. }
    apply Rabs_le_inv in A4, A5. apply Rabs_le. lra.
Qed.

(** ** one panel *)

Definition step (a : f64) : f64 := fdiv (fsub (fint 1) a) (fint 300).
Definition abscR (a : R) (i : Z) : R := (a + IZR i * ((1 - a) / 300))%R.
Definition panelR (a : R) (i : Z) : R := ((1 - a) / 300 * ((tiling 2 (abscR a i) + tiling 2 (abscR a (i + 1))) / 2))%R.

Lemma abscR_in a i : (/ 2 <= a < 1)%R -> 0 <= i <= 300 -> (/ 2 <= abscR a i <= 1)%R.
Proof.
  intros Ha Hi. unfold abscR. assert (0 <= IZR i <= 300)%R by (split; [apply (IZR_le 0)|apply (IZR_le _ 300)]; lia). nra.
Qed.
Lemma abscR_next a i : abscR a (i + 1) = (abscR a i + (1 - a) / 300)%R.
Proof. unfold abscR. rewrite plus_IZR. ring. Qed.

Lemma ends_false x il : is_finite x = true -> il = fdiv (fint 1) (fint 2) -> not_end_fp x il = false -> (B2R x = / 2 \/ B2R x = 1)%R.
Proof.
  intros F -> H. unfold not_end_fp in H. apply negb_false_iff, orb_true_iff in H as [H|H].
  - apply feq_iff in H; [|exact F|reflexivity]. rewrite half_B2R in H. auto.
  - apply feq_iff in H; [|exact F|reflexivity]. rewrite one_B2R in H. auto.
Qed.
Lemma ends_true x il : is_finite x = true -> il = fdiv (fint 1) (fint 2) -> not_end_fp x il = true -> (B2R x <> / 2 /\ B2R x <> 1)%R.
Proof.
  intros F -> H. unfold not_end_fp in H. apply negb_true_iff, orb_false_iff in H as [H1 H2]. split; intros E.
  - rewrite (proj2 (feq_iff x (fdiv (fint 1) (fint 2)) F eq_refl)) in H1; [discriminate|]. now rewrite half_B2R.
  - rewrite (proj2 (feq_iff x (fint 1) F eq_refl)) in H2; [discriminate|]. now rewrite one_B2R.
Qed.

(** no panel raises, whatever the exponential returns *)
Lemma panel_total fexp a i S : is_finite a = true -> (/ 2 <= B2R a < 1)%R -> 0 <= i < 300 ->
  exists S', pbody fexp a (step a) (fint 2) i S = Ok S'.
Proof.
  intros F Ha Hi. unfold pbody. rewrite il_is_half. cbn [bind].
  destruct (absc2 a i F Ha ltac:(lia)) as (F0 & R0 & _). destruct (absc2 a (i + 1) F Ha ltac:(lia)) as (F1 & R1 & _).
  unfold absc, step in *. cbv zeta in *. set (t0 := fadd a (fmul (fint i) _)) in *. set (t1 := fadd a (fmul (fint (i + 1)) _)) in *.
  destruct (not_end_fp t0 _) eqn:N0; cbn [andb]; [|eauto]. destruct (not_end_fp t1 _) eqn:N1; [|eauto].
  apply ends_true in N0; [|exact F0|reflexivity]. apply ends_true in N1; [|exact F1|reflexivity].
  rewrite !integrand_expo. destruct (point2 t0 F0) as (e0 & -> & _); [lra|]. destruct (point2 t1 F1) as (e1 & -> & _); [lra|].
  cbn [bind]. eauto.
Qed.

Lemma near_tiling t x f : (/ 2 <= t <= 1)%R -> (/ 2 <= x <= 1)%R -> (Rabs (t - x) <= 3 * eps)%R -> (Rabs (f - tiling 2 t) <= 9 * eps)%R ->
  (Rabs (f - tiling 2 x) <= 57 * eps)%R.
Proof.
  intros Ht Hx H1 H2. pose proof (tiling_lip t x Ht Hx) as H3.
  assert (H4 : (Rabs (tiling 2 t - tiling 2 x) <= 48 * eps)%R) by lra.
  apply Rabs_le_inv in H2, H4. apply Rabs_le. lra.
Qed.

Lemma panel_acc fexp a i S : accurate_exp fexp -> is_finite a = true -> (/ 2 <= B2R a < 1)%R -> 0 <= i < 300 ->
  is_finite S = true -> (0 <= B2R S <= / 2)%R ->
  exists S', pbody fexp a (step a) (fint 2) i S = Ok S' /\ is_finite S' = true /\ (0 <= B2R S')%R /\
    (Rabs (B2R S' - (B2R S + panelR (B2R a) i)) <= 3 * eps)%R.
Proof.
  intros Hf F Ha Hi FS HS. unfold pbody. rewrite il_is_half. cbn [bind]. pose proof eps_small as He.
  destruct (absc2 a i F Ha ltac:(lia)) as (F0 & R0 & X0). destruct (absc2 a (i + 1) F Ha ltac:(lia)) as (F1 & R1 & X1).
  destruct (step2 a F Ha) as (_ & Fh & Eh & _). cbv zeta in *. fold (step a) in *. unfold absc in *.
  fold (abscR (B2R a) i) in X0. fold (abscR (B2R a) (i + 1)) in X1.
  pose proof (abscR_in (B2R a) i Ha ltac:(lia)) as I0. pose proof (abscR_in (B2R a) (i + 1) Ha ltac:(lia)) as I1.
  pose proof (abscR_next (B2R a) i) as EN.
  set (x0 := abscR (B2R a) i) in *. set (x1 := abscR (B2R a) (i + 1)) in *.
  set (t0 := fadd a (fmul (fint i) _)) in *. set (t1 := fadd a (fmul (fint (i + 1)) _)) in *.
  set (H := ((1 - B2R a) / 300)%R) in *. assert (HH : (0 < H <= / 600)%R) by (unfold H; lra).
  unfold panelR. fold x0 x1 H.
  pose proof (tiling_le2 x0 I0) as B0. pose proof (tiling_le2 x1 I1) as B1.
  assert (Sk : (tiling 2 x0 <= eps)%R -> (tiling 2 x1 <= eps)%R ->
    (Rabs (B2R S - (B2R S + H * ((tiling 2 x0 + tiling 2 x1) / 2))) <= 3 * eps)%R).
  { intros T0 T1. assert (0 <= H * ((tiling 2 x0 + tiling 2 x1) / 2) <= / 600 * ((eps + eps) / 2))%R.
    { split; [apply Rmult_le_pos; lra|apply Rmult_le_compat; lra]. } apply Rabs_le. lra. }
  assert (Sk' : (B2R t0 = / 2 \/ B2R t0 = 1 \/ B2R t1 = / 2 \/ B2R t1 = 1)%R -> (tiling 2 x0 <= eps)%R /\ (tiling 2 x1 <= eps)%R).
  { intros C. apply Rabs_le_inv in X0, X1. unfold eps in X0, X1. split; (apply tiling_tiny; [lra|]).
    - destruct C as [C|[C|[C|C]]]; [right|left|right|left]; lra.
    - destruct C as [C|[C|[C|C]]]; [right|left|right|left]; lra. }
  destruct (not_end_fp t0 _) eqn:N0; cbn [andb].
  2:{ apply ends_false in N0; [|exact F0|reflexivity]. exists S. destruct Sk' as [T0 T1]; [tauto|]. repeat split; auto; lra. }
  destruct (not_end_fp t1 _) eqn:N1.
  2:{ apply ends_false in N1; [|exact F1|reflexivity]. exists S. destruct Sk' as [T0 T1]; [tauto|]. repeat split; auto; lra. }
  apply ends_true in N0; [|exact F0|reflexivity]. apply ends_true in N1; [|exact F1|reflexivity].
  destruct (point_acc fexp t0 Hf F0) as (f0 & -> & G0 & V0 & A0); [lra|].
  destruct (point_acc fexp t1 Hf F1) as (f1 & -> & G1 & V1 & A1); [lra|]. cbn [bind].
  apply (near_tiling _ x0) in A0; [|lra|exact I0|exact X0]. apply (near_tiling _ x1) in A1; [|lra|exact I1|exact X1].
  (* f0 + f1 *)
  destruct (fadd_ok f0 f1 G0 G1) as [K1 E1].
  { apply big. rewrite Rabs_pos_eq by lra. change (2 ^ 53) with 9007199254740992. lra. }
  assert (D1 : (Rabs (B2R (fadd f0 f1) - (B2R f0 + B2R f1)) <= eps)%R) by (rewrite E1; apply rnd_abs1; rewrite Rabs_pos_eq; lra).
  assert (P1 : (0 <= B2R (fadd f0 f1))%R) by (rewrite E1; apply rnd_pos; lra).
  set (g := fadd f0 f1) in *. clear E1.
  set (T := (tiling 2 x0 + tiling 2 x1)%R) in *. assert (BT : (0 <= T <= 4 / 7)%R) by (unfold T; lra).
  assert (D1' : (Rabs (B2R g - T) <= 115 * eps)%R) by (apply Rabs_le_inv in D1, A0, A1; apply Rabs_le; unfold T; lra).
  apply Rabs_le_inv in D1'. apply Rabs_le_inv in Eh. set (h := step a) in *.
  assert (Hh : (0 < B2R h <= / 500)%R) by (unfold eps in *; nra).
  (* g * h *)
  assert (Bgh : (0 <= B2R g * B2R h <= / 500)%R).
  { split; [apply Rmult_le_pos; lra|]. apply Rle_trans with (1 * / 500)%R; [apply Rmult_le_compat; lra|lra]. }
  destruct (fmul_ok g h K1 Fh) as [K2 E2].
  { apply big. rewrite Rabs_pos_eq by lra. change (2 ^ 53) with 9007199254740992. lra. }
  assert (D2 : (Rabs (B2R (fmul g h) - B2R g * B2R h) <= eps)%R) by (rewrite E2; apply rnd_abs1; rewrite Rabs_pos_eq; lra).
  assert (P2 : (0 <= B2R (fmul g h))%R) by (rewrite E2; apply rnd_pos; lra).
  set (p := fmul g h) in *. clear E2.
  assert (D2' : (Rabs (B2R g * B2R h - H * T) <= eps / 2)%R).
  { replace (B2R g * B2R h - H * T)%R with ((B2R g - T) * B2R h + T * (B2R h - H))%R by ring.
    eapply Rle_trans; [apply Rabs_triang|]. rewrite !Rabs_mult.
    assert (Rabs (B2R g - T) * Rabs (B2R h) <= 115 * eps * / 500)%R.
    { apply Rmult_le_compat; try apply Rabs_pos; [apply Rabs_le; lra|rewrite Rabs_pos_eq; lra]. }
    assert (Rabs T * Rabs (B2R h - H) <= 1 * (eps * / 600))%R.
    { apply Rmult_le_compat; try apply Rabs_pos; [rewrite Rabs_pos_eq; lra|]. apply Rabs_le. nra. }
    lra. }
  apply Rabs_le_inv in D2, D2'.
  (* / 2 *)
  destruct (fdiv_ok p (fint 2) K2) as [K3 E3].
  { rewrite (fint_B2R 2) by lia. lra. }
  { rewrite (fint_B2R 2) by lia. apply big. rewrite Rabs_pos_eq by lra. change (2 ^ 53) with 9007199254740992. lra. }
  rewrite (fint_B2R 2) in E3 by lia.
  assert (D3 : (Rabs (B2R (fdiv p (fint 2)) - B2R p / 2) <= eps)%R) by (rewrite E3; apply rnd_abs1; rewrite Rabs_pos_eq; lra).
  assert (P3 : (0 <= B2R (fdiv p (fint 2)))%R) by (rewrite E3; apply rnd_pos; lra).
  set (q := fdiv p (fint 2)) in *. clear E3. apply Rabs_le_inv in D3.
  (* + *)
  destruct (fadd_ok S q FS K3) as [K4 E4].
  { apply big. rewrite Rabs_pos_eq by lra. change (2 ^ 53) with 9007199254740992. lra. }
  assert (D4 : (Rabs (B2R (fadd S q) - (B2R S + B2R q)) <= eps)%R) by (rewrite E4; apply rnd_abs1; rewrite Rabs_pos_eq; lra).
  apply Rabs_le_inv in D4. exists (fadd S q). split; [reflexivity|]. split; [exact K4|]. split; [rewrite E4; apply rnd_pos; lra|].
  apply Rabs_le. lra.
Qed.

(** ** the whole integral *)

Definition sumR (a : R) : R := sumZ 0 300 (panelR a).

Lemma panelR_range a i : (/ 2 <= a < 1)%R -> 0 <= i < 300 -> (0 <= panelR a i <= / 2100)%R.
Proof.
  intros Ha Hi. unfold panelR. pose proof (tiling_le2 _ (abscR_in a i Ha ltac:(lia))). pose proof (tiling_le2 _ (abscR_in a (i + 1) Ha ltac:(lia))).
  split; [apply Rmult_le_pos; lra|]. apply Rle_trans with (/ 600 * (2 / 7))%R; [apply Rmult_le_compat; lra|lra].
Qed.

Lemma part_unfold fexp a : is_finite a = true -> (/ 2 <= B2R a < 1)%R ->
  part_scaling_fn_fp fexp a (fint 1) 300 (fint 2) = for_ (zrange 0 300) (fint 0) (pbody fexp a (step a) (fint 2)).
Proof.
  intros F Ha. unfold part_scaling_fn_fp. destruct (step2 a F Ha) as (-> & _). cbn [bind]. fold (step a).
  rewrite feq_false; [reflexivity|exact F|reflexivity|]. rewrite one_B2R. lra.
Qed.

Lemma part_total fexp a : is_finite a = true -> (/ 2 <= B2R a < 1)%R ->
  exists v, part_scaling_fn_fp fexp a (fint 1) 300 (fint 2) = Ok v.
Proof.
  intros F Ha. rewrite part_unfold by auto.
  assert (I : forall n : nat, Z.of_nat n <= 300 -> exists v, for_ (zrange 0 (Z.of_nat n)) (fint 0) (pbody fexp a (step a) (fint 2)) = Ok v).
  { induction n as [|n IH]; intros Hn; [eexists; reflexivity|]. destruct IH as (S & ES); [lia|].
    replace (Z.of_nat (Datatypes.S n)) with (Z.of_nat n + 1) by lia. rewrite zrange_snoc by lia. rewrite for_app, ES. cbn [bind for_].
    destruct (panel_total fexp a (Z.of_nat n) S F Ha) as (S' & ->); [lia|]. cbn [bind]. eauto. }
  apply (I 300%nat). lia.
Qed.

Lemma part_acc fexp a : accurate_exp fexp -> is_finite a = true -> (/ 2 <= B2R a < 1)%R ->
  exists v, part_scaling_fn_fp fexp a (fint 1) 300 (fint 2) = Ok v /\ is_finite v = true /\ (0 <= B2R v)%R /\
    (Rabs (B2R v - sumR (B2R a)) <= 900 * eps)%R.
Proof.
  intros Hf F Ha. rewrite part_unfold by auto. pose proof eps_small as He.
  assert (I : forall n : nat, Z.of_nat n <= 300 -> exists v, for_ (zrange 0 (Z.of_nat n)) (fint 0) (pbody fexp a (step a) (fint 2)) = Ok v /\
    is_finite v = true /\ (0 <= B2R v)%R /\ (Rabs (B2R v - sumZ 0 (Z.of_nat n) (panelR (B2R a))) <= 3 * IZR (Z.of_nat n) * eps)%R /\
    (0 <= sumZ 0 (Z.of_nat n) (panelR (B2R a)) <= IZR (Z.of_nat n) * / 2100)%R).
  { induction n as [|n IH]; intros Hn.
    - exists (fint 0). split; [reflexivity|]. split; [reflexivity|]. rewrite (fint_B2R 0) by lia. split; [lra|].
      rewrite sumZ_nil by lia. cbn [Z.of_nat]. rewrite Rminus_0_r, Rabs_R0. lra.
    - destruct IH as (S & ES & FS & PS & AS & BS); [lia|]. set (z := Z.of_nat n) in *.
      replace (Z.of_nat (Datatypes.S n)) with (z + 1) in * by lia. rewrite zrange_snoc by lia. rewrite for_app, ES. cbn [bind for_].
      assert (Hz : (0 <= IZR z <= 299)%R) by (split; [apply (IZR_le 0)|apply (IZR_le _ 299)]; lia).
      pose proof (panelR_range (B2R a) z Ha ltac:(lia)) as RP.
      destruct (panel_acc fexp a z S Hf F Ha) as (S' & -> & F' & P' & A'); [lia|exact FS| |].
      { split; [exact PS|]. apply Rabs_le_inv in AS. assert (3 * IZR z * eps <= 900 * eps)%R by (apply Rmult_le_compat_r; lra). unfold eps in *. lra. }
      exists S'. cbn [bind]. split; [reflexivity|]. split; [exact F'|]. split; [exact P'|]. rewrite sumZ_S, plus_IZR by lia.
      apply Rabs_le_inv in AS, A'. split; [|lra]. apply Rabs_le. lra. }
  destruct (I 300%nat) as (v & Ev & Fv & Pv & Av & _); [lia|]. exists v. repeat split; auto. unfold sumR.
  change (Z.of_nat 300) with 300 in Av. lra.
Qed.

(** the rules of the specification leave out panels that touch an end *)
Lemma panelR_tiny a i : (/ 2 <= a < 1)%R -> 0 <= i < 300 -> i = 299 \/ (i = 0 /\ a = (/ 2)%R) -> (panelR a i <= eps)%R.
Proof.
  intros Ha Hi C. unfold panelR. pose proof eps_small.
  assert (T : (tiling 2 (abscR a i) <= eps)%R /\ (tiling 2 (abscR a (i + 1)) <= eps)%R).
  { pose proof (abscR_in a i Ha ltac:(lia)) as I0. pose proof (abscR_in a (i + 1) Ha ltac:(lia)) as I1.
    destruct C as [->|[-> ->]].
    - split; (apply tiling_tiny; [assumption|left]); unfold abscR; change (299 + 1) with 300; change (0 + 1) with 1; lra.
    - split; (apply tiling_tiny; [assumption|right]); unfold abscR; change (299 + 1) with 300; change (0 + 1) with 1; lra. }
  pose proof (tiling_pos 2 (abscR a i) ltac:(pose proof (abscR_in a i Ha ltac:(lia)); lra)).
  pose proof (tiling_pos 2 (abscR a (i + 1)) ltac:(pose proof (abscR_in a (i + 1) Ha ltac:(lia)); lra)).
  apply Rle_trans with (1 * ((eps + eps) / 2))%R; [apply Rmult_le_compat; lra|lra].
Qed.
Lemma sum_trap a first : (/ 2 <= a < 1)%R -> (first = 0 /\ (/ 2 < a)%R \/ first = 1 /\ a = (/ 2)%R) ->
  (0 <= sumR a - trapezium 2 a first 300 <= 2 * eps)%R.
Proof.
  intros Ha C. unfold sumR. change 300 with (299 + 1) at 1 3. rewrite sumZ_S by lia.
  pose proof (panelR_range a 299 Ha ltac:(lia)). pose proof (panelR_tiny a 299 Ha ltac:(lia) ltac:(now left)).
  assert (X : sumZ first 299 (panelR a) = trapezium 2 a first 300).
  { unfold trapezium. change (300 - 1) with 299. apply sumZ_ext. intros i Hi. unfold panelR, abscR.
    assert (Hi' : (0 <= IZR i <= 298)%R) by (split; [apply (IZR_le 0)|apply (IZR_le _ 298)]; destruct C as [[-> _]|[-> _]]; lia).
    assert (Hi1 : (/ 2 = a -> 1 <= IZR i)%R) by (intros; destruct C as [[_ C]|[-> _]]; [lra|apply (IZR_le 1); lia]).
    rewrite !tiling_kernel; try lra; rewrite ?plus_IZR.
    - split; [destruct (Req_dec a (/ 2)); [specialize (Hi1 ltac:(lra))|]; nra|nra].
    - split; [destruct (Req_dec a (/ 2)); [specialize (Hi1 ltac:(lra))|]; nra|nra]. }
  destruct C as [[-> C]|[-> C]].
  - rewrite X. lra.
  - rewrite (sumZ_split 0 1 299) by lia. rewrite X. change (sumZ 0 1 (panelR a)) with (sumZ 0 (0 + 1) (panelR a)). rewrite sumZ_S, sumZ_nil by lia.
    pose proof (panelR_range a 0 Ha ltac:(lia)). pose proof (panelR_tiny a 0 Ha ltac:(lia) ltac:(right; split; [reflexivity|lra])). lra.
Qed.

Lemma part_trap fexp a first : accurate_exp fexp -> is_finite a = true -> (/ 2 <= B2R a < 1)%R -> (first = 0 /\ (/ 2 < B2R a)%R \/ first = 1 /\ B2R a = (/ 2)%R) ->
  exists v, part_scaling_fn_fp fexp a (fint 1) 300 (fint 2) = Ok v /\ is_finite v = true /\ (0 <= B2R v)%R /\
    (Rabs (B2R v - trapezium 2 (B2R a) first 300) <= 902 * eps)%R.
Proof.
  intros Hf F Ha C. destruct (part_acc fexp a Hf F Ha) as (v & E & Fv & Pv & Av). exists v. repeat split; auto.
  pose proof (sum_trap (B2R a) first Ha C). apply Rabs_le_inv in Av. apply Rabs_le. lra.
Qed.
