(** The binary64 quadrature at the default dilation lam = 2 *)

From Coq Require Import ZArith Reals List Bool Lia Lra Psatz.
From Flocq Require Import Core Relative IEEE754.BinarySingleNaN.
From Verif Require Import Py PyFacts ModelSamples SamplesFacts ModelFilters FiltersFacts ModelFloat FloatProps SpecFp FloatFacts.
Import ListNotations.
Open Scope Z_scope.

#[local] Existing Instance gt53.
#[local] Existing Instance vexp.
#[local] Existing Instance mexp.

Lemma big x : (Rabs x <= IZR (2 ^ 53))%R -> (Rabs (rnd x) < bpow radix2 1024)%R.
Proof.
  intros H. apply Rle_lt_trans with (IZR (2 ^ 53)).
  - apply abs_round_le_generic; auto; try typeclasses eauto. apply format_int. cbn; lia.
  - change (2 ^ 53) with (Zpower radix2 53). rewrite IZR_Zpower by lia. apply bpow_lt. lia.
Qed.
Lemma rnd_le_f x y : generic_format radix2 (SpecFloat.fexp 53 1024) y -> (x <= y)%R -> (rnd x <= y)%R.
Proof. intros. apply round_le_generic; auto; typeclasses eauto. Qed.
Lemma rnd_ge_f x y : generic_format radix2 (SpecFloat.fexp 53 1024) y -> (y <= x)%R -> (y <= rnd x)%R.
Proof. intros. apply round_ge_generic; auto; typeclasses eauto. Qed.

(** multiples of a power of two *)
Lemma fmt_grid N e : Z.abs N <= 2 ^ 53 -> -1074 <= e -> generic_format radix2 (SpecFloat.fexp 53 1024) (IZR N * bpow radix2 e)%R.
Proof.
  intros HN He. change (SpecFloat.fexp 53 1024) with (FLT_exp (-1074) 53).
  destruct (Z.eq_dec (Z.abs N) (2 ^ 53)) as [E|E].
  - assert (G : generic_format radix2 (FLT_exp (-1074) 53) (IZR (2 ^ 53) * bpow radix2 e)).
    { change (2 ^ 53) with (Zpower radix2 53). rewrite IZR_Zpower by lia. rewrite <- bpow_plus.
      apply generic_format_bpow. unfold FLT_exp. lia. }
    destruct (Z_le_gt_dec 0 N).
    + replace N with (2 ^ 53) by lia. exact G.
    + replace N with (- 2 ^ 53) by lia. rewrite opp_IZR, Ropp_mult_distr_l_reverse. apply generic_format_opp. exact G.
  - apply generic_format_FLT. apply (FLT_spec _ _ _ _ (Float radix2 N e)).
    + reflexivity.
    + cbn [Fnum]. change (Zpower radix2 53) with (2 ^ 53). lia.
    + exact He.
Qed.
Lemma rnd_grid N e : Z.abs N <= 2 ^ 53 -> -1074 <= e -> rnd (IZR N * bpow radix2 e) = (IZR N * bpow radix2 e)%R.
Proof. intros. apply round_generic; [typeclasses eauto|now apply fmt_grid]. Qed.

Lemma half_grid (t : f64) : (/ 2 <= B2R t <= 1)%R ->
  exists T, 2 ^ 52 <= T <= 2 ^ 53 /\ B2R t = (IZR T * eps)%R.
Proof.
  intros Ht. pose proof (fmt t) as F. unfold generic_format in F.
  set (x := B2R t) in *. set (m := Ztrunc _) in F. set (e := cexp _ _ _) in F.
  assert (He : -53 <= e).
  { unfold e, cexp. assert (M : 0 <= mag radix2 x).
    { apply mag_ge_bpow. change (bpow radix2 (0 - 1)) with (/ 2)%R. rewrite Rabs_pos_eq; lra. }
    change (SpecFloat.fexp 53 1024 (mag radix2 x)) with (Z.max (mag radix2 x - 53) (-1074)). lia. }
  assert (E : x = (IZR (m * 2 ^ (e + 53)) * eps)%R).
  { rewrite F at 1. unfold F2R. cbn [Fnum Fexp]. rewrite mult_IZR. change 2 with (radix_val radix2) at 1.
    rewrite IZR_Zpower by lia. rewrite eps_bpow. rewrite Rmult_assoc, <- bpow_plus. f_equal. f_equal. lia. }
  exists (m * 2 ^ (e + 53)). split; [|exact E]. set (T := m * 2 ^ (e + 53)) in *. rewrite E in Ht.
  unfold eps in Ht. split; apply le_IZR; change (2 ^ 52) with 4503599627370496; change (2 ^ 53) with 9007199254740992; lra.
Qed.

Lemma half_B2R : B2R (fdiv (fint 1) (fint 2)) = (/ 2)%R.
Proof.
  destruct (fdiv_ok (fint 1) (fint 2)) as [_ E]; [reflexivity| | |].
  - rewrite (fint_B2R 2) by lia. lra.
  - rewrite one_B2R, (fint_B2R 2) by lia. apply big. rewrite Rabs_pos_eq; [|lra]. change (2 ^ 53) with 9007199254740992. lra.
  - rewrite E, one_B2R, (fint_B2R 2) by lia. replace (1 / 2)%R with (IZR 1 * bpow radix2 (-1))%R by (change (bpow radix2 (-1)) with (/ 2)%R; lra).
    rewrite rnd_grid by lia. change (bpow radix2 (-1)) with (/ 2)%R. lra.
Qed.
Lemma c_is_4 : pydiv (fmul (fint 2) (fint 2)) (fsub (fint 2) (fint 1)) = Ok (fint 4).
Proof. rewrite pydiv_ok by (vm_compute; reflexivity). f_equal. apply B2SF_inj. vm_compute. reflexivity. Qed.
Lemma il_is_half : pydiv (fint 1) (fint 2) = Ok (fdiv (fint 1) (fint 2)).
Proof. apply pydiv_ok. vm_compute. reflexivity. Qed.

(** the argument of exp at an interior point: s = 4t - 3 is computed exactly *)
Definition fp_arg (t : R) : R := let s := (4 * t - 3)%R in rnd (-2 / rnd (1 - rnd (s * s))).

Lemma s_exact t : is_finite t = true -> (/ 2 <= B2R t <= 1)%R ->
  let s := fsub (fmul (fsub t (fdiv (fint 1) (fint 2))) (fint 4)) (fint 1) in
  is_finite s = true /\ B2R s = (4 * B2R t - 3)%R.
Proof.
  intros F Ht. destruct (half_grid t Ht) as (T & HT & E). cbv zeta.
  assert (B : (IZR 4503599627370496 <= IZR T <= IZR 9007199254740992)%R) by (split; apply IZR_le; exact HT || apply HT).
  destruct (fsub_ok t (fdiv (fint 1) (fint 2)) F) as [F1 E1]; [reflexivity| |].
  { rewrite half_B2R. apply big. rewrite Rabs_pos_eq by lra. change (2 ^ 53) with 9007199254740992. lra. }
  rewrite half_B2R, E in E1.
  replace (IZR T * eps - / 2)%R with (IZR (T - 2 ^ 52) * bpow radix2 (-53))%R in E1
    by (rewrite minus_IZR, <- eps_bpow; unfold eps; change (2 ^ 52) with 4503599627370496; lra).
  rewrite rnd_grid in E1 by lia. set (x1 := fsub t _) in *.
  destruct (fmul_ok x1 (fint 4) F1) as [F2 E2]; [reflexivity| |].
  { rewrite E1, (fint_B2R 4) by lia. apply big. rewrite minus_IZR, <- eps_bpow. unfold eps. change (2 ^ 52) with 4503599627370496.
    change (2 ^ 53) with 9007199254740992. rewrite Rabs_pos_eq; lra. }
  rewrite E1, (fint_B2R 4) in E2 by lia.
  replace (IZR (T - 2 ^ 52) * bpow radix2 (-53) * 4)%R with (IZR (T - 2 ^ 52) * bpow radix2 (-51))%R in E2
    by (change (-51) with (-53 + 2); rewrite bpow_plus; change (bpow radix2 2) with 4%R; ring).
  rewrite rnd_grid in E2 by lia. set (x2 := fmul x1 _) in *.
  assert (B51 : bpow radix2 (-51) = (/ 2251799813685248)%R) by reflexivity.
  destruct (fsub_ok x2 (fint 1) F2) as [F3 E3]; [reflexivity| |].
  { rewrite E2, one_B2R. apply big. rewrite minus_IZR, B51. change (2 ^ 52) with 4503599627370496.
    change (2 ^ 53) with 9007199254740992. apply Rabs_le. lra. }
  rewrite E2, one_B2R in E3.
  replace (IZR (T - 2 ^ 52) * bpow radix2 (-51) - 1)%R with (IZR (T - 2 ^ 52 - 2 ^ 51) * bpow radix2 (-51))%R in E3
    by (rewrite !minus_IZR, B51; change (2 ^ 52) with 4503599627370496; change (2 ^ 51) with 2251799813685248; lra).
  rewrite rnd_grid in E3 by lia. split; [exact F3|]. rewrite E3, E. rewrite !minus_IZR, B51. unfold eps.
  change (2 ^ 52) with 4503599627370496. change (2 ^ 51) with 2251799813685248. lra.
Qed.

Lemma u_range (t : f64) : is_finite t = true -> (/ 2 < B2R t < 1)%R -> (0 < rnd (1 - rnd ((4 * B2R t - 3) * (4 * B2R t - 3))) <= 1)%R.
Proof.
  intros F Ht. destruct (half_grid t) as (T & HT & ET); [lra|].
  assert (HT' : 2 ^ 52 + 1 <= T <= 2 ^ 53 - 1).
  { rewrite ET in Ht. unfold eps in Ht. split; [apply Zlt_le_succ|apply Z.lt_le_pred]; apply lt_IZR;
    change (2 ^ 52) with 4503599627370496; change (2 ^ 53) with 9007199254740992; lra. }
  assert (Bt : (IZR 4503599627370497 <= IZR T <= IZR 9007199254740991)%R) by (split; apply IZR_le; exact HT' || apply HT').
  set (M := (IZR (2 ^ 51 - 1) * bpow radix2 (-51))%R).
  assert (EM : M = (1 - / 2251799813685248)%R) by (unfold M; change (2 ^ 51 - 1) with 2251799813685247; change (bpow radix2 (-51)) with (/ 2251799813685248)%R; lra).
  assert (FM : generic_format radix2 (SpecFloat.fexp 53 1024) M) by (apply fmt_grid; lia).
  set (sr := (4 * B2R t - 3)%R) in *.
  assert (Bs : (- M <= sr <= M)%R) by (unfold sr; rewrite ET, EM; unfold eps; lra).
  assert (Bss : (0 <= sr * sr <= M)%R) by (split; [nra|]; assert (0 <= (M - sr) * (M + sr))%R by (apply Rmult_le_pos; lra); nra).
  assert (Bq : (0 <= rnd (sr * sr) <= M)%R).
  { split; [apply (rnd_ge_f _ 0); [apply (format_int 0); lia|lra]|apply rnd_le_f; [exact FM|lra]]. }
  split.
  - apply Rlt_le_trans with (/ 2251799813685248)%R; [lra|].
    apply rnd_ge_f; [|lra]. replace (/ 2251799813685248)%R with (IZR 1 * bpow radix2 (-51))%R by (change (bpow radix2 (-51)) with (/ 2251799813685248)%R; lra).
    apply fmt_grid; lia.
  - apply (rnd_le_f _ (IZR 1)); [apply (format_int 1); lia|lra].
Qed.

Lemma point2 t : is_finite t = true -> (/ 2 < B2R t < 1)%R ->
  exists e, expo t (fint 2) = Ok e /\ is_finite e = true /\ B2R e = fp_arg (B2R t) /\ (- IZR (2 ^ 52) <= B2R e <= -2)%R.
Proof.
  intros F Ht. destruct (s_exact t F) as [Fs Es]; [lra|]. unfold expo. rewrite il_is_half, c_is_4. cbn [bind]. cbv zeta in Fs, Es.
  set (s := fsub (fmul _ _) _) in *.
  destruct (half_grid t) as (T & HT & ET); [lra|].
  assert (HT' : 2 ^ 52 + 1 <= T <= 2 ^ 53 - 1).
  { rewrite ET in Ht. unfold eps in Ht. split; [apply Zlt_le_succ|apply Z.lt_le_pred]; apply lt_IZR;
    change (2 ^ 52) with 4503599627370496; change (2 ^ 53) with 9007199254740992; lra. }
  assert (Bt : (IZR 4503599627370497 <= IZR T <= IZR 9007199254740991)%R) by (split; apply IZR_le; exact HT' || apply HT').
  set (M := (IZR (2 ^ 51 - 1) * bpow radix2 (-51))%R).
  assert (EM : M = (1 - / 2251799813685248)%R) by (unfold M; change (2 ^ 51 - 1) with 2251799813685247; change (bpow radix2 (-51)) with (/ 2251799813685248)%R; lra).
  assert (FM : generic_format radix2 (SpecFloat.fexp 53 1024) M) by (apply fmt_grid; lia).
  assert (Bs : (- M <= B2R s <= M)%R) by (rewrite Es, ET, EM; unfold eps; lra).
  set (sr := (4 * B2R t - 3)%R) in *. rewrite Es in Bs.
  assert (Bss : (0 <= sr * sr <= M)%R) by (split; [nra|]; assert (0 <= (M - sr) * (M + sr))%R by (apply Rmult_le_pos; lra); nra).
  destruct (fmul_ok s s Fs Fs) as [F1 E1].
  { rewrite Es. apply big. rewrite Rabs_pos_eq by lra. change (2 ^ 53) with 9007199254740992. lra. }
  rewrite Es in E1. set (q := fmul s s) in *.
  assert (Bq : (0 <= B2R q <= M)%R).
  { rewrite E1. split; [apply (rnd_ge_f _ 0); [apply (format_int 0); lia|lra]|apply rnd_le_f; [exact FM|lra]]. }
  destruct (fsub_ok (fint 1) q eq_refl F1) as [F2 E2].
  { rewrite one_B2R. apply big. rewrite Rabs_pos_eq by lra. change (2 ^ 53) with 9007199254740992. lra. }
  rewrite one_B2R in E2. set (u := fsub (fint 1) q) in *.
  assert (Bu : (/ 2251799813685248 <= B2R u <= 1)%R).
  { rewrite E2. split.
    - apply rnd_ge_f; [|lra]. replace (/ 2251799813685248)%R with (IZR 1 * bpow radix2 (-51))%R by (change (bpow radix2 (-51)) with (/ 2251799813685248)%R; lra).
      apply fmt_grid; lia.
    - apply (rnd_le_f _ (IZR 1)); [apply (format_int 1); lia|lra]. }
  assert (Fu : feq u (fint 0) = false) by (apply feq_false; [exact F2|reflexivity|rewrite (fint_B2R 0) by lia; lra]).
  rewrite pydiv_ok by exact Fu.
  assert (Bd : (- IZR (2 ^ 52) <= -2 / B2R u <= -2)%R).
  { change (2 ^ 52) with 4503599627370496. assert (I : (1 <= / B2R u <= 2251799813685248)%R).
    { split; [rewrite <- Rinv_1; apply Rinv_le_contravar; lra|]. rewrite <- (Rinv_inv 2251799813685248). apply Rinv_le_contravar; lra. }
    unfold Rdiv. lra. }
  destruct (fdiv_ok (fint (-2)) u) as [F3 E3]; [reflexivity|lra| |].
  { rewrite (fint_B2R (-2)) by lia. apply big. apply Rabs_le. change (2 ^ 53) with 9007199254740992. change (2 ^ 52) with 4503599627370496 in Bd. lra. }
  rewrite (fint_B2R (-2)) in E3 by lia.
  eexists. split; [reflexivity|]. split; [exact F3|]. split.
  - rewrite E3, E2, E1. reflexivity.
  - rewrite E3. split.
    + rewrite <- opp_IZR. apply rnd_ge_f; [apply format_int; cbn; lia|]. rewrite opp_IZR. lra.
    + apply (rnd_le_f _ (IZR (-2))); [apply (format_int (-2)); lia|lra].
Qed.

(** the abscissae stay in [a, 1] *)
Lemma rnd_1eps : rnd (1 + eps) = 1%R.
Proof.
  set (w := binary_normalize 53 1024 gt53 lt53 mode_NE 1 (-53) false).
  assert (Ew : B2R w = eps).
  { assert (EF : B2SF w = SpecFloat.S754_finite false 4503599627370496 (-105)) by (vm_compute; reflexivity).
    destruct w as [| | |s' m' e' H']; try discriminate. cbn in EF. injection EF as -> -> ->.
    cbn [B2R]. unfold F2R. cbn [Fnum Fexp cond_Zopp]. change (bpow radix2 (-105)) with (/ 40564819207303340847894502572032)%R. unfold eps. lra. }
  assert (Fw : is_finite w = true) by (vm_compute; reflexivity).
  destruct (fadd_ok (fint 1) w eq_refl Fw) as [_ E].
  { rewrite one_B2R, Ew. apply big. rewrite Rabs_pos_eq by (unfold eps; lra). change (2 ^ 53) with 9007199254740992. unfold eps. lra. }
  rewrite one_B2R, Ew in E. rewrite <- E. replace (fadd (fint 1) w) with (fint 1); [apply one_B2R|].
  apply B2SF_inj. vm_compute. reflexivity.
Qed.

Lemma rnd_abs2 x : (Rabs x <= 2)%R -> (Rabs (rnd x - x) <= 2 * eps)%R.
Proof.
  intros H. pose proof (error_le_half_ulp radix2 (SpecFloat.fexp 53 1024) (fun z => negb (Z.even z)) x) as G.
  assert (U : (ulp radix2 (SpecFloat.fexp 53 1024) x <= ulp radix2 (SpecFloat.fexp 53 1024) (bpow radix2 1))%R).
  { apply ulp_le; [typeclasses eauto|typeclasses eauto|]. change (bpow radix2 1) with 2%R. rewrite (Rabs_pos_eq 2) by lra. exact H. }
  rewrite ulp_bpow in U. change (bpow radix2 (SpecFloat.fexp 53 1024 (1 + 1))) with (/ 2251799813685248)%R in U.
  change (Rabs (rnd x - x) <= / 2 * ulp radix2 (SpecFloat.fexp 53 1024) x)%R in G. unfold eps. lra.
Qed.
Lemma rnd_0 : rnd 0 = 0%R. Proof. apply (rnd_Z 0). lia. Qed.
Lemma rnd_pos x : (0 <= x)%R -> (0 <= rnd x)%R.
Proof. intros H. rewrite <- rnd_0. now apply rnd_mono. Qed.
Lemma eps_small : (0 < eps < / 1000000000)%R. Proof. unfold eps. lra. Qed.

(** the step *)
Lemma step2 a : is_finite a = true -> (/ 2 <= B2R a < 1)%R ->
  let h := fdiv (fsub (fint 1) a) (fint 300) in let d := (1 - B2R a)%R in
  pydiv (fsub (fint 1) a) (fint 300) = Ok h /\ is_finite h = true /\
  (Rabs (B2R h - d / 300) <= eps * (d / 300))%R /\ exists D, B2R a = (1 - IZR D * eps)%R /\ 1 <= D <= 2 ^ 52.
Proof.
  intros F Ha. cbv zeta. destruct (half_grid a) as (T & HT & E); [lra|].
  assert (HT' : T < 2 ^ 53) by (apply lt_IZR; rewrite E in Ha; unfold eps in Ha; change (2 ^ 53) with 9007199254740992; lra).
  set (D := 2 ^ 53 - T).
  assert (ED : (1 - B2R a)%R = (IZR D * bpow radix2 (-53))%R).
  { rewrite E. unfold D. rewrite minus_IZR, <- eps_bpow. change (2 ^ 53) with 9007199254740992. unfold eps. lra. }
  destruct (fsub_ok (fint 1) a eq_refl F) as [F1 E1].
  { rewrite one_B2R. apply big. rewrite Rabs_pos_eq by lra. change (2 ^ 53) with 9007199254740992. lra. }
  rewrite one_B2R, ED, rnd_grid in E1 by (unfold D; lia). rewrite <- ED in E1.
  assert (HD1 : (eps <= 1 - B2R a)%R).
  { rewrite ED, <- eps_bpow. assert (1 <= IZR D)%R by (apply (IZR_le 1); unfold D; lia). unfold eps. lra. }
  pose proof eps_small as He. set (d := fsub (fint 1) a) in *. set (r := (1 - B2R a)%R) in *.
  assert (N : (bpow radix2 (-1022) <= Rabs (r / 300))%R).
  { rewrite Rabs_pos_eq by lra. apply Rle_trans with (bpow radix2 (-62)); [apply bpow_le; lia|].
    change (bpow radix2 (-62)) with (/ 4611686018427387904)%R. unfold eps in HD1. lra. }
  assert (Hr : (r <= / 2)%R) by (unfold r; lra).
  destruct (fdiv_ok d (fint 300) F1) as [F2 E2].
  { rewrite (fint_B2R 300) by lia. lra. }
  { rewrite E1, (fint_B2R 300) by lia. apply big. rewrite Rabs_pos_eq by lra. change (2 ^ 53) with 9007199254740992. lra. }
  rewrite E1, (fint_B2R 300) in E2 by lia. split; [apply pydiv_ok; apply feq_false; [reflexivity|reflexivity|]|].
  { rewrite (fint_B2R 300), (fint_B2R 0) by lia. lra. }
  split; [exact F2|]. split.
  - rewrite E2. replace (r / 300)%R with (Rabs (r / 300)) at 3 by (apply Rabs_pos_eq; lra). apply rnd_rel. exact N.
  - exists D. split; [rewrite eps_bpow, <- ED; unfold r; ring|unfold D; lia].
Qed.

(** the abscissae *)
Lemma absc2 a i : is_finite a = true -> (/ 2 <= B2R a < 1)%R -> 0 <= i <= 300 ->
  let h := fdiv (fsub (fint 1) a) (fint 300) in let t := absc a h i in
  is_finite t = true /\ (B2R a <= B2R t <= 1)%R /\
  (Rabs (B2R t - (B2R a + IZR i * ((1 - B2R a) / 300))) <= 3 * eps)%R.
Proof.
  intros F Ha Hi. destruct (step2 a F Ha) as (_ & Fh & Eh & D & ED & HD). cbv zeta in *. set (h := fdiv _ _) in *.
  set (r := (1 - B2R a)%R) in *. assert (Hr : (0 < r <= / 2)%R) by (unfold r; lra).
  assert (Hi' : (0 <= IZR i <= 300)%R) by (split; [apply (IZR_le 0)|apply (IZR_le _ 300)]; lia).
  pose proof eps_small as He. apply Rabs_le_inv in Eh.
  assert (B1 : (0 <= B2R h)%R) by nra.
  assert (B2 : (IZR i * B2R h <= r + eps)%R).
  { apply Rle_trans with (300 * (r / 300 + eps * (r / 300)))%R; [apply Rmult_le_compat; lra|]. nra. }
  assert (B3 : (0 <= IZR i * B2R h)%R) by (apply Rmult_le_pos; lra).
  unfold absc. destruct (fmul_ok (fint i) h) as [F1 E1]; [apply fint_fin; lia|exact Fh| |].
  { rewrite (fint_B2R i) by lia. apply big. rewrite Rabs_pos_eq by lra. change (2 ^ 53) with 9007199254740992. lra. }
  rewrite (fint_B2R i) in E1 by lia. set (m := fmul (fint i) h) in *.
  assert (B4 : (0 <= B2R m <= r + eps)%R).
  { rewrite E1. split; [now apply rnd_pos|]. apply rnd_le_f; [|exact B2].
    replace (r + eps)%R with (IZR (D + 1) * bpow radix2 (-53))%R by (unfold r; rewrite ED, plus_IZR, <- eps_bpow; ring). apply fmt_grid; lia. }
  assert (B5 : (Rabs (B2R m - IZR i * (r / 300)) <= 2 * eps)%R).
  { assert (X : (Rabs (B2R m - IZR i * B2R h) <= eps)%R) by (rewrite E1; apply rnd_abs1; rewrite Rabs_pos_eq; lra).
    assert (Y : (Rabs (IZR i * B2R h - IZR i * (r / 300)) <= eps)%R).
    { rewrite <- Rmult_minus_distr_l, Rabs_mult, (Rabs_pos_eq (IZR i)) by lra.
      assert (Rabs (B2R h - r / 300) <= eps * (r / 300))%R by (apply Rabs_le; lra).
      apply Rle_trans with (300 * (eps * (r / 300)))%R; [apply Rmult_le_compat; try lra; apply Rabs_pos|nra]. }
    apply Rabs_le_inv in X, Y. apply Rabs_le. lra. }
  destruct (fadd_ok a m F F1) as [F2 E2].
  { apply big. rewrite Rabs_pos_eq by lra. change (2 ^ 53) with 9007199254740992. unfold r in B4. lra. }
  set (t := fadd a m) in *. split; [exact F2|].
  assert (Hy : (B2R a + B2R m <= 1 + eps)%R) by (unfold r in B4; lra).
  assert (B6 : (B2R a <= B2R t <= 1)%R).
  { rewrite E2. split; [apply rnd_ge_f; [apply fmt|lra]|]. rewrite <- rnd_1eps. now apply rnd_mono. }
  split; [exact B6|].
  assert (B7 : (Rabs (B2R t - (B2R a + B2R m)) <= eps)%R).
  { destruct (Rle_or_lt (B2R a + B2R m) 1) as [G|G].
    - rewrite E2. apply rnd_abs1. rewrite Rabs_pos_eq; lra.
    - assert (B2R t = 1%R). { apply Rle_antisym; [lra|]. rewrite E2. rewrite <- (rnd_Z 1) by lia. apply rnd_mono. lra. }
      apply Rabs_le. lra. }
  apply Rabs_le_inv in B5, B7. apply Rabs_le. lra.
Qed.
