(** Statements and proofs for PropertiesFloatThree.v *)

From Coq Require Import ZArith Reals List Bool Lia Lra Psatz.
From Flocq Require Import Core Relative IEEE754.BinarySingleNaN.
From Verif Require Import Py PyFacts ModelSamples SamplesFacts ModelFilters FiltersFacts.
From Verif Require Import ModelFloat ModelFloatTrans ModelFloatJax ModelFloatJaxFilt SpecFp SpecThree FloatProps FloatFacts FloatDefault FloatAccProps FloatJaxFiltProps.
From Verif Require Import ModelFloatDir FloatDirFacts FloatDirFilterProps DirFilterFacts.
From Verif Require Import FloatFacts FloatDefault FloatAccProps FloatJaxFiltProps.
Import ListNotations.
Open Scope Z_scope.

#[local] Existing Instance gt53.
#[local] Existing Instance vexp.
#[local] Existing Instance mexp.

(*T The dilation 3 in binary64 *)
(*! From Coq Require Import ZArith Reals List Bool. *)
(*! From Flocq Require Import Core IEEE754.BinarySingleNaN. *)
(*! From Verif Require Import Py ModelSamples ModelFloat ModelFloatDir ModelFloatTrans ModelFloatJax ModelFloatJaxFilt SpecFp SpecThree. *)

(** the value of a literal *)
Lemma lit_B2R (x : f64) s m e : B2SF x = SpecFloat.S754_finite s m e -> is_finite x = true /\ B2R x = (IZR (cond_Zopp s (Zpos m)) * bpow radix2 e)%R.
Proof.
  destruct x as [| | |s' m' e' H']; try discriminate. cbn [B2SF]. intros [= -> -> ->]. split; reflexivity.
Qed.

Definition c3 : f64 := fdiv (fint 1) (fint 3).
Definition e54 : R := / 18014398509481984.
Lemma c3_val : is_finite c3 = true /\ B2R c3 = (6004799503160661 * e54)%R.
Proof.
  destruct (lit_B2R c3 false 6004799503160661 (-54)) as [A B]; [vm_compute; reflexivity|]. split; [exact A|]. rewrite B.
  cbn [cond_Zopp]. change (bpow radix2 (-54)) with (/ 18014398509481984)%R. unfold e54. reflexivity.
Qed.
Lemma il_is_third : pydiv (fint 1) (fint 3) = Ok c3.
Proof. apply pydiv_ok. vm_compute. reflexivity. Qed.
Lemma c_is_3 : pydiv (fmul (fint 2) (fint 3)) (fsub (fint 3) (fint 1)) = Ok (fint 3).
Proof. rewrite pydiv_ok by (vm_compute; reflexivity). f_equal. apply B2SF_inj. vm_compute. reflexivity. Qed.

(** floats above 2^e are multiples of 2^(e-52) *)
Lemma grid_at (t : f64) e : -1000 <= e -> (bpow radix2 e <= B2R t)%R -> exists T, B2R t = (IZR T * bpow radix2 (e - 52))%R.
Proof.
  intros He0 Ht. pose proof (fmt t) as F. unfold generic_format in F.
  set (x := B2R t) in *. set (m := Ztrunc _) in F. set (k := cexp _ _ _) in F.
  assert (He : e - 52 <= k).
  { unfold k, cexp. assert (M : e + 1 <= mag radix2 x).
    { apply mag_ge_bpow. replace (e + 1 - 1) with e by lia. rewrite Rabs_pos_eq; [exact Ht|]. pose proof (bpow_gt_0 radix2 e). lra. }
    change (SpecFloat.fexp 53 1024 (mag radix2 x)) with (Z.max (mag radix2 x - 53) (-1074)). lia. }
  exists (m * 2 ^ (k - (e - 52))). rewrite F at 1. unfold F2R. cbn [Fnum Fexp]. rewrite mult_IZR. change 2 with (radix_val radix2).
  rewrite IZR_Zpower by lia. rewrite Rmult_assoc, <- bpow_plus. f_equal. f_equal. lia.
Qed.

Lemma above_c3 (t : f64) : (B2R c3 < B2R t)%R -> (6004799503160662 * e54 <= B2R t)%R.
Proof.
  intros H. rewrite (proj2 c3_val) in H. destruct (grid_at t (-2)) as (T & E); [lia| |].
  { change (bpow radix2 (-2)) with (/ 4)%R. unfold e54 in H. lra. }
  change (-2 - 52) with (-54) in E. change (bpow radix2 (-54)) with e54 in E. rewrite E in *.
  assert (6004799503160661 < T) by (apply lt_IZR; unfold e54 in H; lra).
  assert (6004799503160662 <= IZR T)%R by (apply (IZR_le 6004799503160662); lia). unfold e54. lra.
Qed.
Lemma below_1 (t : f64) : (/ 4 <= B2R t)%R -> (B2R t < 1)%R -> (B2R t <= 1 - eps)%R.
Proof.
  intros H0 H. destruct (Rle_or_lt (B2R t) (/ 2)) as [G|G]; [unfold eps; lra|].
  destruct (half_grid t) as (T & HT & E); [lra|]. rewrite E in *.
  assert (T < 9007199254740992) by (apply lt_IZR; unfold eps in H; lra).
  assert (IZR T <= 9007199254740991)%R by (apply (IZR_le _ 9007199254740991); lia). unfold eps in *. lra.
Qed.
Lemma above_1 (t : f64) : (1 < B2R t)%R -> (1 + 2 * eps <= B2R t)%R.
Proof.
  intros H. destruct (grid_at t 0) as (T & E); [lia|change (bpow radix2 0) with 1%R; lra|].
  change (0 - 52) with (-52) in E. change (bpow radix2 (-52)) with (/ 4503599627370496)%R in E. rewrite E in *.
  assert (4503599627370496 < T) by (apply lt_IZR; lra).
  assert (4503599627370497 <= IZR T)%R by (apply (IZR_le 4503599627370497); lia). unfold eps in *. lra.
Qed.

(** the argument s of the bump *)
Definition sarg (t : f64) : f64 := fsub (fmul (fsub t c3) (fint 3)) (fint 1).
Definition sR (t : R) : R := rnd (rnd (rnd (t - B2R c3) * 3) - 1).
Lemma sR_mono x y : (x <= y)%R -> (sR x <= sR y)%R.
Proof. intros H. unfold sR. apply rnd_mono. assert (rnd (rnd (x - B2R c3) * 3) <= rnd (rnd (y - B2R c3) * 3))%R; [|lra].
  apply rnd_mono. assert (rnd (x - B2R c3) <= rnd (y - B2R c3))%R by (apply rnd_mono; lra). lra. Qed.
Lemma sarg_ok t : is_finite t = true -> (B2R c3 <= B2R t <= 4)%R -> is_finite (sarg t) = true /\ B2R (sarg t) = sR (B2R t) /\ (-1 <= sR (B2R t) <= 11)%R.
Proof.
  intros F Ht. destruct c3_val as [Fc Ec]. unfold sarg, sR. pose proof (rnd_mono 0 (B2R t - B2R c3) ltac:(lra)) as M0. rewrite rnd_0 in M0.
  assert (M1 : (rnd (B2R t - B2R c3) <= 4)%R) by (apply (rnd_le_f _ (IZR 4)); [apply (format_int 4); lia|rewrite Ec; unfold e54; lra]).
  destruct (fsub_ok t c3 F Fc) as [F1 E1]. { apply big. rewrite Rabs_pos_eq by lra. change (2 ^ 53) with 9007199254740992. rewrite Ec. unfold e54. lra. }
  set (u := fsub t c3) in *. rewrite <- E1 in M0, M1 |- *.
  assert (M2 : (0 <= rnd (B2R u * 3) <= 12)%R).
  { split; [apply rnd_pos; lra|apply (rnd_le_f _ (IZR 12)); [apply (format_int 12); lia|lra]]. }
  destruct (fmul_ok u (fint 3) F1) as [F2 E2]; [reflexivity| |].
  { rewrite (fint_B2R 3) by lia. apply big. rewrite Rabs_pos_eq by lra. change (2 ^ 53) with 9007199254740992. lra. }
  rewrite (fint_B2R 3) in E2 by lia. set (w := fmul u (fint 3)) in *. rewrite <- E2 in M2 |- *.
  destruct (fsub_ok w (fint 1) F2) as [F3 E3]; [reflexivity| |].
  { rewrite one_B2R. apply big. change (2 ^ 53) with 9007199254740992. apply Rabs_le. lra. }
  rewrite one_B2R in E3. split; [exact F3|]. split; [exact E3|]. split.
  - apply (rnd_ge_f _ (IZR (-1))); [apply (format_int (-1)); lia|lra].
  - apply (rnd_le_f _ (IZR 11)); [apply (format_int 11); lia|lra].
Qed.

Definition lit (m e : Z) : f64 := binary_normalize 53 1024 gt53 lt53 mode_NE m e false.
Lemma sR_lit (t : f64) s m e v s' m' e' : B2SF t = SpecFloat.S754_finite s m e -> (IZR (cond_Zopp s (Zpos m)) * bpow radix2 e)%R = v ->
  (B2R c3 <= v <= 4)%R -> B2SF (sarg t) = SpecFloat.S754_finite s' m' e' -> sR v = (IZR (cond_Zopp s' (Zpos m')) * bpow radix2 e')%R.
Proof.
  intros H1 H2 H3 H4. destruct (lit_B2R t s m e H1) as [F E]. rewrite H2 in E. rewrite <- E in H3 |- *.
  destruct (sarg_ok t F H3) as (_ & <- & _). now destruct (lit_B2R (sarg t) s' m' e' H4).
Qed.

Lemma s_low : (-1 + eps <= sR (6004799503160662 * e54))%R.
Proof.
  assert (E : sR (6004799503160662 * e54) = (IZR (cond_Zopp true 9007199254740990) * bpow radix2 (-53))%R).
  { apply (sR_lit (lit 6004799503160662 (-54)) false 6004799503160662 (-54)); try (vm_compute; reflexivity).
    rewrite (proj2 c3_val). unfold e54. lra. }
  rewrite E. cbn [cond_Zopp]. change (bpow radix2 (-53)) with eps. change (IZR (- (9007199254740990))) with (-9007199254740990)%R. unfold eps. lra.
Qed.
Lemma s_high : (sR (1 - eps) <= 1 - eps)%R.
Proof.
  assert (E : sR (1 - eps) = (IZR (cond_Zopp false 9007199254740988) * bpow radix2 (-53))%R).
  { apply (sR_lit (lit 9007199254740991 (-53)) false 9007199254740991 (-53)); try (vm_compute; reflexivity).
    - cbn [cond_Zopp]. change (bpow radix2 (-53)) with eps. unfold eps. lra.
    - rewrite (proj2 c3_val). unfold e54, eps. lra. }
  rewrite E. cbn [cond_Zopp]. change (bpow radix2 (-53)) with eps. unfold eps. lra.
Qed.
Lemma s_over : (1 + 2 * eps <= sR (1 + 2 * eps))%R.
Proof.
  assert (E : sR (1 + 2 * eps) = (IZR (cond_Zopp false 4503599627370500) * bpow radix2 (-52))%R).
  { apply (sR_lit (lit 4503599627370497 (-52)) false 4503599627370497 (-52)); try (vm_compute; reflexivity).
    - cbn [cond_Zopp]. change (bpow radix2 (-52)) with (/ 4503599627370496)%R. unfold eps. lra.
    - rewrite (proj2 c3_val). unfold e54, eps. lra. }
  rewrite E. cbn [cond_Zopp]. change (bpow radix2 (-52)) with (/ 4503599627370496)%R. unfold eps. lra.
Qed.
Lemma s_far : (sR (1 + 8 * eps) <= 1 + 32 * eps)%R.
Proof.
  assert (E : sR (1 + 8 * eps) = (IZR (cond_Zopp false 4503599627370508) * bpow radix2 (-52))%R).
  { apply (sR_lit (lit 4503599627370500 (-52)) false 4503599627370500 (-52)); try (vm_compute; reflexivity).
    - cbn [cond_Zopp]. change (bpow radix2 (-52)) with (/ 4503599627370496)%R. unfold eps. lra.
    - rewrite (proj2 c3_val). unfold e54, eps. lra. }
  rewrite E. cbn [cond_Zopp]. change (bpow radix2 (-52)) with (/ 4503599627370496)%R. unfold eps. lra.
Qed.

Lemma expo3_unfold t : expo t (fint 3) = pydiv (fint (-2)) (fsub (fint 1) (fmul (sarg t) (sarg t))).
Proof. unfold expo. rewrite il_is_third, c_is_3. reflexivity. Qed.

Lemma fmt_1eps : generic_format radix2 (SpecFloat.fexp 53 1024) (1 - eps)%R.
Proof.
  replace (1 - eps)%R with (IZR (2 ^ 53 - 1) * bpow radix2 (-53))%R; [apply fmt_grid; lia|].
  change (2 ^ 53 - 1) with 9007199254740991. change (bpow radix2 (-53)) with eps. unfold eps. lra.
Qed.
Lemma fmt_up k : 0 <= k <= 100 -> generic_format radix2 (SpecFloat.fexp 53 1024) (1 + IZR k * (2 * eps))%R.
Proof.
  intros Hk. replace (1 + IZR k * (2 * eps))%R with (IZR (2 ^ 52 + k) * bpow radix2 (-52))%R; [apply fmt_grid; lia|].
  rewrite plus_IZR. change (2 ^ 52) with 4503599627370496. change (bpow radix2 (-52)) with (/ 4503599627370496)%R. unfold eps. lra.
Qed.

(** strictly inside the support the exponent is at most -2 *)
Lemma point3 t : is_finite t = true -> (B2R c3 < B2R t < 1)%R ->
  exists e, expo t (fint 3) = Ok e /\ is_finite e = true /\ (B2R e <= -2)%R.
Proof.
  intros F Ht. rewrite expo3_unfold. destruct (sarg_ok t F) as (Fs & Es & _); [lra|]. set (s := sarg t) in *.
  assert (H1 : (/ 4 <= B2R t)%R) by (pose proof (proj2 c3_val); unfold e54 in *; lra).
  assert (Bs : (- (1 - eps) <= B2R s <= 1 - eps)%R).
  { rewrite Es. split.
    - pose proof (sR_mono _ _ (above_c3 t ltac:(lra))). pose proof s_low. lra.
    - pose proof (sR_mono _ _ (below_1 t H1 ltac:(lra))). pose proof s_high. lra. }
  pose proof eps_small as He.
  assert (Bss : (0 <= B2R s * B2R s <= 1 - eps)%R).
  { split; [nra|]. assert (0 <= ((1 - eps) - B2R s) * ((1 - eps) + B2R s))%R by (apply Rmult_le_pos; lra). nra. }
  destruct (fmul_ok s s Fs Fs) as [F1 E1].
  { apply big. rewrite Rabs_pos_eq by lra. change (2 ^ 53) with 9007199254740992. lra. }
  set (q := fmul s s) in *.
  assert (Bq : (0 <= B2R q <= 1 - eps)%R).
  { rewrite E1. split; [now apply rnd_pos|apply rnd_le_f; [apply fmt_1eps|lra]]. }
  destruct (fsub_ok (fint 1) q eq_refl F1) as [F2 E2].
  { rewrite one_B2R. apply big. rewrite Rabs_pos_eq by lra. change (2 ^ 53) with 9007199254740992. lra. }
  rewrite one_B2R in E2. set (u := fsub (fint 1) q) in *.
  assert (Bu : (eps <= B2R u <= 1)%R).
  { rewrite E2. split.
    - apply rnd_ge_f; [|lra]. replace eps with (IZR 1 * bpow radix2 (-53))%R by (change (bpow radix2 (-53)) with eps; ring). apply fmt_grid; lia.
    - apply (rnd_le_f _ (IZR 1)); [apply (format_int 1); lia|lra]. }
  rewrite pydiv_ok by (apply feq_false; [exact F2|reflexivity|rewrite (fint_B2R 0) by lia; lra]).
  assert (Bd : (- IZR (2 ^ 54) <= -2 / B2R u <= -2)%R).
  { change (2 ^ 54) with 18014398509481984. assert (I : (1 <= / B2R u <= 9007199254740992)%R).
    { split; [rewrite <- Rinv_1; apply Rinv_le_contravar; lra|]. rewrite <- (Rinv_inv 9007199254740992). apply Rinv_le_contravar; unfold eps in Bu; lra. }
    unfold Rdiv. lra. }
  destruct (fdiv_ok (fint (-2)) u) as [F3 E3]; [reflexivity|lra| |].
  { rewrite (fint_B2R (-2)) by lia. apply Rle_lt_trans with (bpow radix2 54); [|apply bpow_lt; lia].
    apply abs_round_le_generic; try typeclasses eauto; [apply generic_format_bpow; vm_compute; discriminate|].
    change (bpow radix2 54) with (IZR (2 ^ 54)). apply Rabs_le. change (2 ^ 54) with 18014398509481984 in *. lra. }
  rewrite (fint_B2R (-2)) in E3 by lia.
  eexists. split; [reflexivity|]. split; [exact F3|]. rewrite E3. apply (rnd_le_f _ (IZR (-2))); [apply (format_int (-2)); lia|lra].
Qed.

(** beyond 1 the exponent is computed too; just beyond 1 it is huge *)
Lemma point3_over t : is_finite t = true -> (1 < B2R t <= 4)%R ->
  exists e, expo t (fint 3) = Ok e /\ ((B2R t <= 1 + 8 * eps)%R -> flt (fint 710) e = true).
Proof.
  intros F Ht. rewrite expo3_unfold. assert (HC : (B2R c3 <= 1)%R) by (pose proof (proj2 c3_val); unfold e54 in *; lra).
  destruct (sarg_ok t F) as (Fs & Es & Bs); [lra|]. set (s := sarg t) in *.
  assert (Ls : (1 + 2 * eps <= B2R s)%R) by (rewrite Es; pose proof (sR_mono _ _ (above_1 t ltac:(lra))); pose proof s_over; lra).
  rewrite <- Es in Bs. pose proof eps_small as He.
  destruct (fmul_ok s s Fs Fs) as [F1 E1].
  { apply big. rewrite Rabs_pos_eq by nra. change (2 ^ 53) with 9007199254740992. nra. }
  set (q := fmul s s) in *.
  assert (Bq : (1 + 2 * eps <= B2R q <= 121)%R).
  { rewrite E1. split.
    - replace (1 + 2 * eps)%R with (1 + IZR 1 * (2 * eps))%R by lra. apply rnd_ge_f; [apply fmt_up; lia|]. nra.
    - apply (rnd_le_f _ (IZR 121)); [apply (format_int 121); lia|nra]. }
  destruct (fsub_ok (fint 1) q eq_refl F1) as [F2 E2].
  { rewrite one_B2R. apply big. change (2 ^ 53) with 9007199254740992. apply Rabs_le. lra. }
  rewrite one_B2R in E2. set (u := fsub (fint 1) q) in *.
  assert (Bu : (B2R u <= - (2 * eps))%R).
  { rewrite E2. apply rnd_le_f; [|lra]. replace (- (2 * eps))%R with (IZR (-1) * bpow radix2 (-52))%R by (change (bpow radix2 (-52)) with (/ 4503599627370496)%R; unfold eps; lra).
    apply fmt_grid; lia. }
  rewrite pydiv_ok by (apply feq_false; [exact F2|reflexivity|rewrite (fint_B2R 0) by lia; lra]).
  eexists. split; [reflexivity|]. intros Hf.
  assert (Us : (B2R s <= 1 + 32 * eps)%R) by (rewrite Es; pose proof (sR_mono _ _ Hf); pose proof s_far; lra).
  assert (Uq : (B2R q <= 1 + IZR 33 * (2 * eps))%R).
  { rewrite E1. apply rnd_le_f; [apply fmt_up; lia|]. apply Rle_trans with ((1 + 32 * eps) * (1 + 32 * eps))%R; [apply Rmult_le_compat; lra|].
    unfold eps. lra. }
  assert (Lu : (- (66 * eps) <= B2R u)%R).
  { rewrite E2. apply rnd_ge_f; [|lra]. replace (- (66 * eps))%R with (IZR (-66) * bpow radix2 (-53))%R by (change (bpow radix2 (-53)) with eps; ring). apply fmt_grid; lia. }
  assert (I : (1000 <= -2 / B2R u <= 9007199254740992)%R).
  { replace (-2 / B2R u)%R with (2 * / (- B2R u))%R by (field; lra).
    assert (/ (66 * eps) <= / (- B2R u) <= / (2 * eps))%R by (split; apply Rinv_le_contravar; lra).
    assert (/ (66 * eps) = 9007199254740992 / 66)%R by (unfold eps; field). assert (/ (2 * eps) = 9007199254740992 / 2)%R by (unfold eps; field). lra. }
  destruct (fdiv_ok (fint (-2)) u) as [F3 E3]; [reflexivity|lra| |].
  { rewrite (fint_B2R (-2)) by lia. apply big. rewrite Rabs_pos_eq by lra. change (2 ^ 53) with 9007199254740992. lra. }
  rewrite (fint_B2R (-2)) in E3 by lia. apply flt_true; [reflexivity|exact F3|]. rewrite (fint_B2R 710), E3 by lia.
  apply Rlt_le_trans with (IZR 1000); [lra|]. apply rnd_ge_f; [apply (format_int 1000); lia|lra].
Qed.

(** ** the abscissae *)
Definition stp (a : f64) : f64 := fdiv (fsub (fint 1) a) (fint 300).
Lemma stp_ok a : is_finite a = true -> (B2R c3 <= B2R a < 1)%R ->
  pydiv (fsub (fint 1) a) (fint 300) = Ok (stp a) /\ is_finite (stp a) = true /\ (0 <= B2R (stp a) <= / 256)%R /\
  (Rabs (300 * B2R (stp a) - (1 - B2R a)) <= 2 * eps)%R.
Proof.
  intros F Ha. assert (HC : (/ 4 <= B2R c3)%R) by (pose proof (proj2 c3_val); unfold e54 in *; lra).
  unfold stp. destruct (fsub_ok (fint 1) a eq_refl F) as [F1 E1].
  { rewrite one_B2R. apply big. rewrite Rabs_pos_eq by lra. change (2 ^ 53) with 9007199254740992. lra. }
  rewrite one_B2R in E1. set (d := fsub (fint 1) a) in *.
  assert (A1 : (Rabs (B2R d - (1 - B2R a)) <= eps)%R) by (rewrite E1; apply rnd_abs1; rewrite Rabs_pos_eq; lra).
  assert (B1 : (0 <= B2R d <= 3 / 4)%R).
  { rewrite E1. split; [apply rnd_pos; lra|]. apply rnd_le_f; [|lra]. replace (3 / 4)%R with (IZR 3 * bpow radix2 (-2))%R by (change (bpow radix2 (-2)) with (/ 4)%R; lra).
    apply fmt_grid; lia. }
  assert (N : (eps <= B2R d)%R).
  { rewrite E1. replace eps with (IZR 1 * bpow radix2 (-53))%R by (change (bpow radix2 (-53)) with eps; ring). apply rnd_ge_f; [apply fmt_grid; lia|].
    change (bpow radix2 (-53)) with eps. pose proof (below_1 a ltac:(lra) ltac:(lra)). lra. }
  destruct (fdiv_ok d (fint 300) F1) as [F2 E2].
  { rewrite (fint_B2R 300) by lia. lra. }
  { rewrite (fint_B2R 300) by lia. apply big. rewrite Rabs_pos_eq by lra. change (2 ^ 53) with 9007199254740992. lra. }
  rewrite (fint_B2R 300) in E2 by lia. split; [apply pydiv_ok, f300|]. split; [exact F2|]. rewrite E2. split.
  - split; [apply rnd_pos; lra|]. replace (/ 256)%R with (IZR 1 * bpow radix2 (-8))%R by (change (bpow radix2 (-8)) with (/ 256)%R; lra).
    apply rnd_le_f; [apply fmt_grid; lia|]. change (bpow radix2 (-8)) with (/ 256)%R. lra.
  - assert (A2 : (Rabs (rnd (B2R d / 300) - B2R d / 300) <= eps * (B2R d / 300))%R).
    { replace (B2R d / 300)%R with (Rabs (B2R d / 300)) at 3 by (apply Rabs_pos_eq; lra). apply rnd_rel.
      rewrite Rabs_pos_eq by lra. apply Rle_trans with (bpow radix2 (-62)); [apply bpow_le; lia|].
      change (bpow radix2 (-62)) with (/ 4611686018427387904)%R. unfold eps in N. lra. }
    pose proof eps_small. apply Rabs_le_inv in A1, A2. apply Rabs_le. nra.
Qed.

Lemma absc3 a i : is_finite a = true -> (B2R c3 <= B2R a < 1)%R -> 0 <= i <= 300 ->
  let t := absc a (stp a) i in is_finite t = true /\ (B2R a <= B2R t <= 4)%R /\ B2R t = rnd (B2R a + rnd (IZR i * B2R (stp a))).
Proof.
  intros F Ha Hi. cbv zeta. destruct (stp_ok a F Ha) as (_ & Fh & Bh & _). set (h := stp a) in *.
  assert (Hi' : (0 <= IZR i <= 300)%R) by (split; [apply (IZR_le 0)|apply (IZR_le _ 300)]; lia).
  assert (HC : (/ 4 <= B2R c3)%R) by (pose proof (proj2 c3_val); unfold e54 in *; lra).
  assert (B3 : (0 <= IZR i * B2R h <= 2)%R) by nra.
  unfold absc. destruct (fmul_ok (fint i) h) as [F1 E1]; [apply fint_fin; lia|exact Fh| |].
  { rewrite (fint_B2R i) by lia. apply big. rewrite Rabs_pos_eq by lra. change (2 ^ 53) with 9007199254740992. lra. }
  rewrite (fint_B2R i) in E1 by lia. set (m := fmul (fint i) h) in *.
  assert (B4 : (0 <= B2R m <= 2)%R).
  { rewrite E1. split; [apply rnd_pos; lra|apply (rnd_le_f _ (IZR 2)); [apply (format_int 2); lia|lra]]. }
  destruct (fadd_ok a m F F1) as [F2 E2].
  { apply big. rewrite Rabs_pos_eq by lra. change (2 ^ 53) with 9007199254740992. lra. }
  split; [exact F2|]. rewrite <- E1. split; [|exact E2]. rewrite E2. split.
  - apply rnd_ge_f; [apply fmt|lra].
  - apply (rnd_le_f _ (IZR 4)); [apply (format_int 4); lia|lra].
Qed.
Lemma absc3_mono a i i' : is_finite a = true -> (B2R c3 <= B2R a < 1)%R -> 0 <= i <= i' -> i' <= 300 ->
  (B2R (absc a (stp a) i) <= B2R (absc a (stp a) i'))%R.
Proof.
  intros F Ha Hi Hi'. destruct (absc3 a i F Ha ltac:(lia)) as (_ & _ & ->). destruct (absc3 a i' F Ha ltac:(lia)) as (_ & _ & ->).
  destruct (stp_ok a F Ha) as (_ & _ & Bh & _). apply rnd_mono. apply Rplus_le_compat_l, rnd_mono.
  apply Rmult_le_compat_r; [lra|]. apply IZR_le. lia.
Qed.

(** the last point is at most 1 + 2^-50, and at most 1 from a = 1/2 on *)
Lemma last3 a : is_finite a = true -> (B2R c3 <= B2R a < 1)%R -> (B2R (absc a (stp a) 300) <= 1 + 8 * eps)%R /\
  ((/ 2 <= B2R a)%R -> (B2R (absc a (stp a) 300) <= 1)%R) /\
  ((B2R a < / 2)%R -> (/ 2 < B2R (absc a (stp a) 299) < 1)%R).
Proof.
  intros F Ha. destruct (stp_ok a F Ha) as (_ & _ & Bh & Ah). pose proof eps_small as He.
  assert (HC : (/ 4 <= B2R c3)%R) by (pose proof (proj2 c3_val); unfold e54 in *; lra). apply Rabs_le_inv in Ah. split; [|split].
  - destruct (absc3 a 300 F Ha ltac:(lia)) as (_ & _ & ->). replace (1 + 8 * eps)%R with (1 + IZR 4 * (2 * eps))%R by lra.
    apply rnd_le_f; [apply fmt_up; lia|].
    assert (X : (Rabs (rnd (300 * B2R (stp a)) - 300 * B2R (stp a)) <= eps)%R) by (apply rnd_abs1; rewrite Rabs_pos_eq; lra).
    apply Rabs_le_inv in X. lra.
  - intros Hh. destruct (absc2 a 300 F ltac:(lra) ltac:(lia)) as (_ & B & _). unfold stp. lra.
  - intros Hh. destruct (absc3 a 299 F Ha ltac:(lia)) as (_ & _ & ->).
    assert (X : (Rabs (rnd (299 * B2R (stp a)) - 299 * B2R (stp a)) <= eps)%R) by (apply rnd_abs1; rewrite Rabs_pos_eq; lra).
    apply Rabs_le_inv in X. split.
    + apply Rlt_le_trans with (3 / 4)%R; [lra|]. replace (3 / 4)%R with (IZR 3 * bpow radix2 (-2))%R by (change (bpow radix2 (-2)) with (/ 4)%R; lra).
      apply rnd_ge_f; [apply fmt_grid; lia|]. change (bpow radix2 (-2)) with (/ 4)%R. lra.
    + apply Rle_lt_trans with (1 - / 1024)%R; [|lra]. replace (1 - / 1024)%R with (IZR 1023 * bpow radix2 (-10))%R by (change (bpow radix2 (-10)) with (/ 1024)%R; lra).
      apply rnd_le_f; [apply fmt_grid; lia|]. change (bpow radix2 (-10)) with (/ 1024)%R. lra.
Qed.

Lemma posf_of (t : f64) : is_finite t = true -> (0 < B2R t)%R -> posf t = true.
Proof.
  intros F H. destruct t as [s|s| |s m e He]; try discriminate; cbn [B2R] in H; [lra|].
  destruct s; [|reflexivity]. exfalso. assert (F2R (Float radix2 (cond_Zopp true (Zpos m)) e) < 0)%R by (apply F2R_lt_0; reflexivity). lra.
Qed.
Lemma not_end3 t : is_finite t = true -> not_end_fp t c3 = negb (feq t c3 || feq t (fint 1)). Proof. reflexivity. Qed.
Lemma not_end3_true t : is_finite t = true -> not_end_fp t c3 = true -> B2R t <> B2R c3 /\ B2R t <> 1%R.
Proof.
  intros F H. unfold not_end_fp in H. rewrite negb_true_iff, orb_false_iff in H. destruct H as [H1 H2]. split; intros E.
  - rewrite (proj2 (feq_iff t c3 F (proj1 c3_val)) E) in H1. discriminate.
  - rewrite (proj2 (feq_iff t (fint 1) F eq_refl)) in H2; [discriminate|]. rewrite one_B2R. exact E.
Qed.

Lemma exp_m2 x : (x <= -2)%R -> (exp x <= / 3)%R.
Proof.
  intros H. apply Rle_trans with (exp (-2)).
  - destruct H as [H| ->]; [left; now apply exp_increasing|right; reflexivity].
  - change (-2)%R with (- (2))%R. rewrite exp_Ropp. apply Rinv_le_contravar; [lra|]. pose proof (exp_ineq1_le 2). lra.
Qed.

(** the integrand: computed everywhere; bounded inside; infinite just beyond 1 *)
Lemma int_total fexp t : is_finite t = true -> (B2R c3 <= B2R t <= 4)%R -> not_end_fp t c3 = true ->
  exists f, tiling_integrand_fp fexp t (fint 3) = Ok f.
Proof.
  intros F Ht H. apply not_end3_true in H as [H1 H2]; [|exact F]. rewrite integrand_expo.
  destruct (Rlt_or_le (B2R t) 1) as [G|G].
  - destruct (point3 t F) as (e & -> & _); [lra|]. cbn [bind]. eauto.
  - destruct (point3_over t F) as (e & -> & _); [lra|]. cbn [bind]. eauto.
Qed.
Lemma int_fb fexp t : accurate_exp fexp -> is_finite t = true -> (B2R c3 <= B2R t <= 1)%R -> not_end_fp t c3 = true ->
  exists f, tiling_integrand_fp fexp t (fint 3) = Ok f /\ fb 4 f.
Proof.
  intros HE F Ht H. apply not_end3_true in H as [H1 H2]; [|exact F]. rewrite integrand_expo.
  destruct (point3 t F) as (e & -> & Fe & Be); [lra|]. cbn [bind]. eexists. split; [reflexivity|]. change 4 with (1 * 4).
  destruct (HE e Fe Be) as (G1 & G2 & G3). apply fb_fdiv; try lia.
  - split; [exact G1|]. pose proof (exp_m2 _ Be). change (bpow radix2 (-53)) with eps in G3. pose proof eps_small. apply Rabs_le_inv in G3. lra.
  - pose proof (proj2 c3_val). unfold e54 in *. lra.
Qed.
Lemma int_inf fexp t : overflowing_exp fexp -> is_finite t = true -> (1 < B2R t <= 1 + 8 * eps)%R -> tiling_integrand_fp fexp t (fint 3) = Ok finf.
Proof.
  intros HO F Ht. rewrite integrand_expo. pose proof eps_small. destruct (point3_over t F) as (e & -> & He); [lra|]. cbn [bind].
  rewrite (HO e) by (apply He; lra). rewrite fdiv_inf; [reflexivity|]. apply posf_of; [exact F|lra].
Qed.

(** ** the quadrature *)
Lemma part_unfold3 fexp a : is_finite a = true -> (B2R c3 <= B2R a < 1)%R ->
  part_scaling_fn_fp fexp a (fint 1) 300 (fint 3) = for_ (zrange 0 300) (fint 0) (pbody fexp a (stp a) (fint 3)).
Proof.
  intros F Ha. unfold part_scaling_fn_fp. destruct (stp_ok a F Ha) as (-> & _). cbn [bind].
  rewrite feq_false; [reflexivity|exact F|reflexivity|rewrite one_B2R; lra].
Qed.
Lemma body_unfold3 fexp a h i S : pbody fexp a h (fint 3) i S =
  if not_end_fp (absc a h i) c3 && not_end_fp (absc a h (i + 1)) c3 then
    f1 <- tiling_integrand_fp fexp (absc a h i) (fint 3) ;;
    f2 <- tiling_integrand_fp fexp (absc a h (i + 1)) (fint 3) ;;
    Ok (fadd S (fdiv (fmul (fadd f1 f2) h) (fint 2)))
  else Ok S.
Proof. unfold pbody. rewrite il_is_third. reflexivity. Qed.

Lemma part_total3 fexp a : is_finite a = true -> (B2R c3 <= B2R a < 1)%R -> exists v, part_scaling_fn_fp fexp a (fint 1) 300 (fint 3) = Ok v.
Proof.
  intros F Ha. rewrite part_unfold3 by assumption.
  destruct (for_prog (fun _ _ => True) 0 300 (fint 0) (pbody fexp a (stp a) (fint 3))) as (v & E & _); [lia|exact I| |eauto].
  intros i S Hi _. rewrite body_unfold3. destruct (_ && _) eqn:G; [|eauto]. apply andb_true_iff in G as [G1 G2].
  destruct (absc3 a i F Ha ltac:(lia)) as (F1 & B1 & _). destruct (absc3 a (i + 1) F Ha ltac:(lia)) as (F2 & B2 & _).
  destruct (int_total fexp _ F1 ltac:(lra) G1) as (f1 & ->). destruct (int_total fexp _ F2 ltac:(lra) G2) as (f2 & ->). cbn [bind]. eauto.
Qed.

Lemma body3 fexp a i S : accurate_exp fexp -> is_finite a = true -> (B2R c3 <= B2R a < 1)%R -> 0 <= i < 300 ->
  (B2R (absc a (stp a) (i + 1)) <= 1)%R -> fb (16 * i) S ->
  exists S', pbody fexp a (stp a) (fint 3) i S = Ok S' /\ fb (16 * (i + 1)) S' /\ (B2R S <= B2R S')%R.
Proof.
  intros HE F Ha Hi H1 HS. rewrite body_unfold3.
  destruct (absc3 a i F Ha ltac:(lia)) as (F1 & B1 & _). destruct (absc3 a (i + 1) F Ha ltac:(lia)) as (F2 & B2 & _).
  pose proof (absc3_mono a i (i + 1) F Ha ltac:(lia) ltac:(lia)) as M. destruct (stp_ok a F Ha) as (_ & Fh & Bh & _).
  destruct (_ && _) eqn:G.
  - apply andb_true_iff in G as [G1 G2].
    destruct (int_fb fexp _ HE F1 ltac:(lra) G1) as (f1 & -> & D1). destruct (int_fb fexp _ HE F2 ltac:(lra) G2) as (f2 & -> & D2). cbn [bind].
    eexists. split; [reflexivity|].
    assert (X : fb 16 (fdiv (fmul (fadd f1 f2) (stp a)) (fint 2))).
    { change 16 with (8 * 2). apply fb_fdiv; try lia; [|rewrite (fint_B2R 2) by lia; lra]. apply fb_fmul; [lia| |exact Fh|lra]. change 8 with (4 + 4). apply fb_fadd; auto. lia. }
    set (x := fdiv _ _) in *. split; [replace (16 * (i + 1)) with (16 * i + 16) by ring; apply fb_fadd; auto; lia|].
    destruct HS as [FS BS]. destruct X as [Fx Bx].
    assert (Hi' : (IZR (16 * i) <= 4800)%R) by (apply (IZR_le _ 4800); lia).
    destruct (fadd_ok S x FS Fx) as [_ E]; [apply big; rewrite Rabs_pos_eq by lra; change (2 ^ 53) with 9007199254740992; lra|].
    rewrite E. apply rnd_ge_f; [apply fmt|lra].
  - eexists. split; [reflexivity|]. split; [|lra]. destruct HS as [A B]. split; [exact A|]. rewrite mult_IZR, plus_IZR in *. lra.
Qed.

Lemma fb0 : fb 0 (fint 0). Proof. split; [reflexivity|]. rewrite (fint_B2R 0) by lia. lra. Qed.
Lemma sum3 fexp a n : accurate_exp fexp -> is_finite a = true -> (B2R c3 <= B2R a < 1)%R -> 0 <= n <= 300 -> (B2R (absc a (stp a) n) <= 1)%R ->
  exists v, for_ (zrange 0 n) (fint 0) (pbody fexp a (stp a) (fint 3)) = Ok v /\ fb (16 * n) v.
Proof.
  intros HE F Ha Hn H. apply (for_prog (fun i S => fb (16 * i) S)); [lia|apply fb0|].
  intros i S Hi HS. destruct (body3 fexp a i S) as (S' & E & B & _); auto; try lia; [|eauto].
  pose proof (absc3_mono a (i + 1) n F Ha ltac:(lia) ltac:(lia)). lra.
Qed.
Lemma part_fin3 fexp a : accurate_exp fexp -> is_finite a = true -> (B2R c3 <= B2R a < 1)%R -> (B2R (absc a (stp a) 300) <= 1)%R ->
  exists v, part_scaling_fn_fp fexp a (fint 1) 300 (fint 3) = Ok v /\ fb 4800 v.
Proof. intros. rewrite part_unfold3 by assumption. now apply (sum3 fexp a 300). Qed.

Lemma not_end3_of t : is_finite t = true -> (B2R t <> B2R c3)%R -> (B2R t <> 1)%R -> not_end_fp t c3 = true.
Proof.
  intros F H1 H2. unfold not_end_fp. rewrite negb_true_iff, orb_false_iff. split.
  - apply feq_false; [exact F|apply c3_val|exact H1].
  - apply feq_false; [exact F|reflexivity|rewrite one_B2R; exact H2].
Qed.
Lemma fadd_fin_inf x : is_finite x = true -> fadd x finf = finf.
Proof. intros H. destruct x as [s|s| |s m e He]; try discriminate; destruct s; reflexivity. Qed.
Lemma part_inf3 fexp a : accurate_exp fexp -> overflowing_exp fexp -> is_finite a = true -> (B2R c3 <= B2R a < 1)%R ->
  (1 < B2R (absc a (stp a) 300))%R -> part_scaling_fn_fp fexp a (fint 1) 300 (fint 3) = Ok finf.
Proof.
  intros HE HO F Ha H. rewrite part_unfold3 by assumption. destruct (last3 a F Ha) as (L1 & L2 & L3).
  assert (Ha2 : (B2R a < / 2)%R) by (apply Rnot_le_lt; intros G; specialize (L2 G); lra). specialize (L3 Ha2).
  change 300 with (299 + 1) at 1. rewrite zrange_snoc by lia. rewrite for_app.
  destruct (sum3 fexp a 299 HE F Ha ltac:(lia) ltac:(lra)) as (S & -> & FS & _). cbn [bind for_].
  rewrite body_unfold3. change (299 + 1) with 300.
  destruct (absc3 a 299 F Ha ltac:(lia)) as (F1 & B1 & _). destruct (absc3 a 300 F Ha ltac:(lia)) as (F2 & B2 & _).
  assert (HC : (/ 4 <= B2R c3 <= / 2)%R) by (pose proof (proj2 c3_val); unfold e54 in *; lra).
  assert (N1 : not_end_fp (absc a (stp a) 299) c3 = true) by (apply not_end3_of; [exact F1|lra|lra]).
  assert (N2 : not_end_fp (absc a (stp a) 300) c3 = true) by (apply not_end3_of; [exact F2|lra|lra]).
  rewrite N1, N2. cbn [andb].
  destruct (int_fb fexp _ HE F1 ltac:(lra) N1) as (f1 & -> & D1 & _). rewrite (int_inf fexp _ HO F2) by lra. cbn [bind].
  destruct (stp_ok a F Ha) as (_ & Fh & Bh & Ah). apply Rabs_le_inv in Ah. pose proof eps_small.
  rewrite (fadd_fin_inf f1), fmul_inf, fdiv_inf, (fadd_fin_inf S); auto using posf2. apply posf_of; [exact Fh|lra].
Qed.

(** ** the normalisation lies between 2^-14 and 4800 *)
Lemma okres_inv {A} (p : A -> bool) r : okres p r = true -> exists x, r = Ok x /\ p x = true.
Proof. destruct r; [|discriminate]. eauto. Qed.
Lemma norm_step (fexp : f64 -> f64) S : accurate_exp fexp -> fb (16 * 150) S ->
  exists S', pbody fexp c3 (stp c3) (fint 3) 150 S = Ok S' /\ (/ 16384 <= B2R S')%R.
Proof.
  intros HE HS. rewrite body_unfold3. set (t1 := absc c3 (stp c3) 150). set (t2 := absc c3 (stp c3) (150 + 1)).
  assert (N1 : not_end_fp t1 c3 = true) by (vm_compute; reflexivity). assert (N2 : not_end_fp t2 c3 = true) by (vm_compute; reflexivity).
  rewrite N1, N2. cbn [andb]. pose proof (proj2 c3_val) as Ec. pose proof (proj1 c3_val) as Fc.
  assert (HC : (/ 4 <= B2R c3 <= / 2)%R) by (unfold e54 in *; lra).
  destruct (absc3 c3 150 Fc ltac:(lra) ltac:(lia)) as (F1 & B1 & _). destruct (absc3 c3 151 Fc ltac:(lra) ltac:(lia)) as (F2 & B2 & _).
  change (absc c3 (stp c3) 150) with t1 in F1, B1. change (absc c3 (stp c3) 151) with t2 in F2, B2.
  assert (X : forall t e, is_finite t = true -> (/ 4 <= B2R t)%R -> flt t (fint 1) = true -> not_end_fp t c3 = true -> (B2R c3 <= B2R t)%R ->
     expo t (fint 3) = Ok e -> flt (fint (-3)) e = true ->
     exists f, tiling_integrand_fp fexp t (fint 3) = Ok f /\ fb 4 f /\ (/ 32 <= B2R f)%R).
  { intros t e Ft B Hlt Nt Bc Ee He. apply flt_iff in Hlt; [|exact Ft|reflexivity]. rewrite one_B2R in Hlt.
    destruct (int_fb fexp t HE Ft ltac:(lra) Nt) as (f & Ef & Df). exists f. split; [exact Ef|]. split; [exact Df|].
    apply not_end3_true in Nt as [Nt _]; [|exact Ft]. destruct (point3 t Ft) as (e' & Ee' & Fe & Be); [lra|]. rewrite Ee in Ee'. apply Ok_inj in Ee' as <-.
    rewrite integrand_expo, Ee in Ef. cbn [bind] in Ef. apply Ok_inj in Ef as <-.
    apply flt_iff in He; [|reflexivity|exact Fe]. rewrite (fint_B2R (-3)) in He by lia.
    destruct (HE e Fe Be) as (G1 & G2 & G3). change (bpow radix2 (-53)) with eps in G3. apply Rabs_le_inv in G3. pose proof eps_small.
    assert (E3 : (/ 27 <= exp (B2R e))%R).
    { apply Rle_trans with (exp (-3)); [|left; now apply exp_increasing]. change (-3)%R with (- (3))%R. rewrite exp_Ropp. apply Rinv_le_contravar; [apply exp_pos|].
      replace 3%R with (1 + 1 + 1)%R by ring. rewrite !exp_plus. pose proof exp_le_3. pose proof (exp_pos 1). replace 27%R with (3 * 3 * 3)%R by ring.
      apply Rmult_le_compat; try nra. }
    destruct (fdiv_ok (fexp e) t G1) as [_ E].
    - lra.
    - apply big. assert (I : (0 < / B2R t <= 4)%R) by (split; [apply Rinv_0_lt_compat; lra|rewrite <- (Rinv_inv 4); apply Rinv_le_contravar; lra]).
      pose proof (exp_m2 _ Be). rewrite Rabs_pos_eq; unfold Rdiv; change (2 ^ 53) with 9007199254740992; nra.
    - rewrite E. replace (/ 32)%R with (IZR 1 * bpow radix2 (-5))%R by (change (bpow radix2 (-5)) with (/ 32)%R; lra). apply rnd_ge_f; [apply fmt_grid; lia|].
      change (bpow radix2 (-5)) with (/ 32)%R. assert (I : (1 <= / B2R t)%R) by (rewrite <- Rinv_1; apply Rinv_le_contravar; lra). unfold Rdiv. nra. }
  assert (O1 : okres (fun e => flt (fint (-3)) e) (expo t1 (fint 3)) = true) by (vm_compute; reflexivity).
  assert (O2 : okres (fun e => flt (fint (-3)) e) (expo t2 (fint 3)) = true) by (vm_compute; reflexivity).
  assert (K1 : flt t1 (fint 1) = true) by (vm_compute; reflexivity). assert (K2 : flt t2 (fint 1) = true) by (vm_compute; reflexivity).
  clearbody t1 t2. destruct (okres_inv _ _ O1) as (e1 & E1 & P1). destruct (okres_inv _ _ O2) as (e2 & E2 & P2).
  destruct (X t1 e1 F1 ltac:(lra) K1 N1 ltac:(lra) E1 P1) as (f1 & -> & D1 & L1).
  destruct (X t2 e2 F2 ltac:(lra) K2 N2 ltac:(lra) E2 P2) as (f2 & -> & D2 & L2). cbn [bind].
  eexists. split; [reflexivity|].
  destruct (stp_ok c3 Fc ltac:(lra)) as (_ & Fh & Bh & Ah). set (h := stp c3) in *. apply Rabs_le_inv in Ah. pose proof eps_small.
  assert (Lh : (/ 512 <= B2R h)%R) by (unfold e54 in Ec; lra).
  assert (P : forall n, 0 <= n <= 20 -> generic_format radix2 (SpecFloat.fexp 53 1024) (bpow radix2 (- n))).
  { intros n Hn. replace (bpow radix2 (- n)) with (IZR 1 * bpow radix2 (- n))%R by ring. apply fmt_grid; lia. }
  destruct D1 as [Ff1 Bf1]. destruct D2 as [Ff2 Bf2]. destruct HS as [FS BS]. change (IZR (16 * 150)) with 2400%R in BS.
  assert (BG : forall x, (0 <= x <= 100000)%R -> (Rabs (rnd x) < bpow radix2 1024)%R).
  { intros x Hx. apply big. rewrite Rabs_pos_eq by lra. change (2 ^ 53) with 9007199254740992. lra. }
  assert (UB : forall x k, 0 <= k <= 2 ^ 53 -> (x <= IZR k)%R -> (rnd x <= IZR k)%R) by (intros x k Hk Hx; apply rnd_le_f; [apply format_int; lia|exact Hx]).
  destruct (fadd_ok f1 f2 Ff1 Ff2) as [Fs Es]; [apply BG; lra|]. set (s := fadd f1 f2) in *.
  assert (Ls : (/ 16 <= B2R s <= 8)%R).
  { rewrite Es. split; [apply (rnd_ge_f _ (bpow radix2 (- (4)))); [apply P; lia|change (bpow radix2 (- (4))) with (/ 16)%R; lra]|apply (UB _ 8); lia || lra]. }
  destruct (fmul_ok s h Fs Fh) as [Fm Em]; [apply BG; split; nra|]. set (m := fmul s h) in *.
  assert (Lm : (/ 8192 <= B2R m <= 8)%R).
  { rewrite Em. split; [apply (rnd_ge_f _ (bpow radix2 (- (13)))); [apply P; lia|change (bpow radix2 (- (13))) with (/ 8192)%R; nra]|apply (UB _ 8); [lia|nra]]. }
  destruct (fdiv_ok m (fint 2) Fm) as [Fx Ex]; [rewrite (fint_B2R 2) by lia; lra|rewrite (fint_B2R 2) by lia; apply BG; lra|].
  rewrite (fint_B2R 2) in Ex by lia. set (x := fdiv m (fint 2)) in *.
  assert (Lx : (/ 16384 <= B2R x <= 4)%R).
  { rewrite Ex. split; [apply (rnd_ge_f _ (bpow radix2 (- (14)))); [apply P; lia|change (bpow radix2 (- (14))) with (/ 16384)%R; lra]|apply (UB _ 4); lia || lra]. }
  destruct (fadd_ok S x FS Fx) as [_ E]; [apply BG; lra|]. rewrite E.
  apply (rnd_ge_f _ (bpow radix2 (- (14)))); [apply P; lia|change (bpow radix2 (- (14))) with (/ 16384)%R; lra].
Qed.

Lemma norm3 fexp : accurate_exp fexp -> exists c, part_scaling_fn_fp fexp c3 (fint 1) 300 (fint 3) = Ok c /\ fb 4800 c /\ (/ 16384 <= B2R c)%R.
Proof.
  intros HE. destruct c3_val as [Fc Ec]. assert (HC : (B2R c3 <= B2R c3 < 1)%R) by (unfold e54 in *; lra).
  assert (T : forall n, 0 <= n <= 300 -> (B2R (absc c3 (stp c3) n) <= 1)%R).
  { intros n Hn. eapply Rle_trans; [apply (absc3_mono c3 n 300 Fc HC); lia|].
    assert (G : flt (fint 1) (absc c3 (stp c3) 300) = false) by (vm_compute; reflexivity).
    apply flt_false_inv in G; [now rewrite one_B2R in G|reflexivity|apply (absc3 c3 300 Fc HC); lia]. }
  rewrite part_unfold3 by assumption.
  destruct (for_prog (fun i S => fb (16 * i) S /\ (150 < i -> (/ 16384 <= B2R S)%R)) 0 300 (fint 0) (pbody fexp c3 (stp c3) (fint 3))) as (c & E & B & Lc).
  - lia.
  - split; [apply fb0|lia].
  - intros i S Hi [HS HL]. destruct (body3 fexp c3 i S HE Fc HC Hi (T (i + 1) ltac:(lia)) HS) as (S' & E & B & M). exists S'. split; [exact E|]. split; [exact B|].
    intros Hi'. destruct (Z.eq_dec i 150) as [->|Hn]; [|specialize (HL ltac:(lia)); lra].
    destruct (norm_step fexp S HE HS) as (S'' & E' & B'). rewrite E in E'. apply Ok_inj in E' as <-. exact B'.
  - exists c. split; [exact E|]. split; [exact B|]. apply Lc. lia.
Qed.

(** ** the entries *)
Lemma three_le j : 0 <= j <= 33 -> 1 <= 3 ^ j <= 2 ^ 53.
Proof. intros H. split; [apply (Z.pow_le_mono_r 3 0 j); lia|]. apply Z.le_trans with (3 ^ 33); [apply Z.pow_le_mono_r; lia|vm_compute; discriminate]. Qed.
Lemma frac3 j l : 0 <= j <= 33 -> 3 ^ j <= 3 * l -> l <= 3 ^ j -> let a := fdiv (fint l) (fint (3 ^ j)) in
  pydiv (fint l) (fint (3 ^ j)) = Ok a /\ is_finite a = true /\ (B2R c3 <= B2R a <= 1)%R.
Proof.
  intros Hj H1 H2. cbv zeta. pose proof (three_le j Hj) as HT. assert (HT' : (1 <= IZR (3 ^ j))%R) by (apply (IZR_le 1); lia).
  assert (R : (1 / 3 <= IZR l / IZR (3 ^ j) <= 1)%R).
  { apply IZR_le in H1, H2. rewrite mult_IZR in H1. split.
    - apply Rmult_le_reg_r with (IZR (3 ^ j)); [lra|]. unfold Rdiv. rewrite (Rmult_assoc (IZR l)), Rinv_l by lra. lra.
    - apply Rmult_le_reg_r with (IZR (3 ^ j)); [lra|]. unfold Rdiv. rewrite Rmult_assoc, Rinv_l by lra. lra. }
  destruct (fdiv_ok (fint l) (fint (3 ^ j))) as [F E]; [apply fint_fin; lia|rewrite fint_B2R by lia; lra| |].
  { rewrite !fint_B2R by lia. apply big. rewrite Rabs_pos_eq by lra. change (2 ^ 53) with 9007199254740992. lra. }
  rewrite !fint_B2R in E by lia. split; [apply pydiv_ok, feq_false; [apply fint_fin; lia|reflexivity|rewrite !fint_B2R by lia; lra]|].
  split; [exact F|]. rewrite E. split; [|apply (rnd_le_f _ (IZR 1)); [apply (format_int 1); lia|lra]].
  destruct (fdiv_ok (fint 1) (fint 3)) as [_ E3]; [reflexivity|rewrite (fint_B2R 3) by lia; lra| |].
  { rewrite one_B2R, (fint_B2R 3) by lia. apply big. rewrite Rabs_pos_eq by lra. change (2 ^ 53) with 9007199254740992. lra. }
  unfold c3. rewrite E3, one_B2R, (fint_B2R 3) by lia. apply rnd_mono. lra.
Qed.

Lemma pow3_pred fpow J j l : powers_of_three fpow J -> 0 <= j <= J + 1 -> J <= 32 -> 0 <= l <= 2 ^ 53 ->
  (flt (fint l) (fpow (fint 3) (j - 1)) = true <-> 3 * l < 3 ^ j) /\ (flt (fpow (fint 3) j) (fint l) = true <-> 3 ^ j < l).
Proof.
  intros [[F0 B0] HP] Hj HJ Hl. destruct (fint_ok l ltac:(lia)) as [Fl El]. split.
  - destruct (Z.eq_dec j 0) as [->|Hn].
    + change (0 - 1) with (-1). rewrite flt_iff, El by auto. change (3 ^ 0) with 1. split.
      * intros H. assert (l < 1); [apply lt_IZR; lra|lia].
      * intros H. replace l with 0 by lia. apply B0.
    + rewrite HP by lia. pose proof (three_le (j - 1) ltac:(lia)). rewrite flt_iff, El, fint_B2R by (auto; try (apply fint_fin); lia).
      replace (3 ^ j) with (3 * 3 ^ (j - 1)) by (rewrite <- Z.pow_succ_r by lia; f_equal; lia). split; intros H'; [apply lt_IZR in H'; lia|apply IZR_lt; lia].
  - rewrite HP by lia. pose proof (three_le j ltac:(lia)). rewrite flt_iff, El, fint_B2R by (auto; try (apply fint_fin); lia).
    split; [apply lt_IZR|apply IZR_lt].
Qed.

Lemma entry_total3 fexp fpow J j l c : powers_of_three fpow J -> J <= 32 -> 0 <= j <= J + 1 -> 0 <= l <= 2 ^ 53 ->
  exists v, k_entry_fp fexp fpow j l (fint 3) 300 c = Ok v.
Proof.
  intros H HJ Hj Hl. destruct (pow3_pred fpow J j l H Hj HJ Hl) as [P1 P2]. unfold k_entry_fp.
  destruct (flt (fint l) _) eqn:E1; [eauto|]. destruct (flt (fpow _ j) _) eqn:E2; [eauto|].
  assert (Q1 : 3 ^ j <= 3 * l) by (apply Z.nlt_ge; intros G; apply P1 in G; congruence).
  assert (Q2 : l <= 3 ^ j) by (apply Z.nlt_ge; intros G; apply P2 in G; congruence).
  destruct H as [_ HP]. rewrite HP by lia. destruct (frac3 j l ltac:(lia) Q1 Q2) as (-> & Fa & Ba). set (a := fdiv _ _) in *. cbn [bind].
  destruct (Req_dec (B2R a) 1) as [Ea|Ea].
  - unfold part_scaling_fn_fp. rewrite (pydiv_ok _ (fint 300)) by exact f300. cbn [bind].
    replace (feq a (fint 1)) with true; [cbn [bind]; eauto|]. symmetry. apply feq_iff; [exact Fa|reflexivity|]. rewrite one_B2R. exact Ea.
  - destruct (part_total3 fexp a Fa) as (v & ->); [lra|]. cbn [bind]. eauto.
Qed.

Lemma one_of (a : f64) : is_finite a = true -> B2R a = 1%R -> a = fint 1.
Proof.
  intros F E. apply B2R_inj; [|reflexivity|rewrite E; symmetry; apply one_B2R].
  destruct a; try discriminate F; try reflexivity. cbn [B2R] in E. lra.
Qed.
Lemma fdiv_inf_pos c : is_finite c = true -> (0 < B2R c)%R -> fdiv finf c = finf.
Proof. intros F P. apply fdiv_inf, posf_of; assumption. Qed.

Lemma entry3 fexp fpow J j l c v : accurate_exp fexp -> overflowing_exp fexp -> powers_of_three fpow J -> J <= 32 -> 0 <= j <= J + 1 -> 0 <= l <= 2 ^ 53 ->
  fb 4800 c -> (/ 16384 <= B2R c)%R -> k_entry_fp fexp fpow j l (fint 3) 300 c = Ok v ->
  (oversteps j l -> v = finf) /\ (~ oversteps j l -> fb (4800 * 16384) v).
Proof.
  intros HE HO H HJ Hj Hl Hc Lc. destruct (pow3_pred fpow J j l H Hj HJ Hl) as [P1 P2]. unfold k_entry_fp, oversteps.
  assert (B01 : forall z, 0 <= z <= 1 -> fb (4800 * 16384) (fint z)).
  { intros z Hz. split; [apply fint_fin; lia|]. rewrite fint_B2R by lia. split; [apply (IZR_le 0)|apply IZR_le]; lia. }
  destruct (flt (fint l) _) eqn:E1.
  { intros Ev. apply Ok_inj in Ev as <-. assert (3 * l < 3 ^ j) by tauto. split; [lia|]. intros _. apply B01. lia. }
  destruct (flt (fpow _ j) _) eqn:E2.
  { intros Ev. apply Ok_inj in Ev as <-. assert (3 ^ j < l) by tauto. split; [lia|]. intros _. apply B01. lia. }
  assert (Q1 : 3 ^ j <= 3 * l) by (apply Z.nlt_ge; intros G; apply P1 in G; congruence).
  assert (Q2 : l <= 3 ^ j) by (apply Z.nlt_ge; intros G; apply P2 in G; congruence).
  destruct H as [_ HP]. rewrite HP by lia. destruct (frac3 j l ltac:(lia) Q1 Q2) as (-> & Fa & Ba). set (a := fdiv _ _) in *. cbn [bind].
  destruct (Req_dec (B2R a) 1) as [Ea|Ea].
  - pose proof (one_of a Fa Ea) as EA. rewrite EA. unfold part_scaling_fn_fp. rewrite (pydiv_ok _ (fint 300)) by exact f300. cbn [bind].
    replace (feq (fint 1) (fint 1)) with true by (vm_compute; reflexivity). cbn [bind]. intros Ev. apply Ok_inj in Ev as <-.
    split.
    + intros (_ & _ & G). assert (X : flt (fint 1) (last_point (fint 1)) = false) by (vm_compute; reflexivity). congruence.
    + intros _. rewrite fdiv0; [apply B01; lia|]. apply flt_true; [reflexivity|apply Hc|]. rewrite (fint_B2R 0) by lia. lra.
  - intros Ev. apply bind_inv in Ev as (q & Eq & Ev). apply Ok_inj in Ev as <-.
    destruct (absc3 a 300 Fa ltac:(lra) ltac:(lia)) as (Ft & Bt & _).
    change (last_point a) with (absc a (stp a) 300). split.
    + intros (_ & _ & G). apply flt_iff in G; [|reflexivity|exact Ft]. rewrite one_B2R in G.
      rewrite (part_inf3 fexp a HE HO Fa ltac:(lra) G) in Eq. apply Ok_inj in Eq as <-. apply fdiv_inf_pos; [apply Hc|lra].
    + intros G. assert (G' : (B2R (absc a (stp a) 300) <= 1)%R).
      { apply Rnot_lt_le. intros X. apply G. split; [exact Q1|]. split; [exact Q2|]. apply flt_true; [reflexivity|exact Ft|]. rewrite one_B2R. exact X. }
      destruct (part_fin3 fexp a HE Fa ltac:(lra) G') as (w & Ew & Bw). rewrite Ew in Eq. apply Ok_inj in Eq as <-.
      apply fb_fdiv; try lia; [exact Bw|exact Lc].
Qed.

(*% ** C89: at lam = 3 the generating function overflows from L = 795 on, and not before *)

(*@ C89_generating_function_never_raises *)
Lemma fp3_total : forall fexp fpow J L, 0 <= L <= 2 ^ 53 -> -1 <= J <= 32 -> powers_of_three fpow J ->
  exists k, k_lam_fp fexp fpow J L (fint 3) 300 = Ok k /\ rows k = J + 2 /\ cols k = L.
Proof.
  intros fexp fpow J L HL HJ HP. destruct c3_val as [Fc Ec].
  destruct (part_total3 fexp c3 Fc) as (c & Ep); [unfold e54 in *; lra|].
  unfold k_lam_fp. rewrite il_is_third. cbn [bind]. rewrite Ep. cbn [bind]. rewrite zeros2_ok by lia. cbn [bind].
  set (kf := fun j l => val (k_entry_fp fexp fpow j l (fint 3) 300 c)).
  rewrite (for_fill2 _ _ _ _ _ (fun _ _ => true) kf); [|lia|lia|lia|].
  - eexists. split; [reflexivity|]. split; reflexivity.
  - intros i g Hi. rewrite (for_fill2_row _ _ _ i _ _ 0 (kf i)); [|lia|lia|lia|lia|].
    + f_equal. apply mk2_ext. intros p q Hp Hq. rewrite Z.sub_0_r. zb.
    + intros l g' Hl. unfold kf. destruct (entry_total3 fexp fpow J i l c HP ltac:(lia) ltac:(lia) ltac:(lia)) as (v & ->). reflexivity.
Qed.

Lemma kfb fexp fpow J L k j l : L <= 2 ^ 53 -> J <= 32 -> accurate_exp fexp -> overflowing_exp fexp -> powers_of_three fpow J ->
  k_lam_fp fexp fpow J L (fint 3) 300 = Ok k -> 0 <= j <= J + 1 -> 0 <= l < L ->
  (oversteps j l -> get2 k j l = finf) /\ (~ oversteps j l -> fb (4800 * 16384) (get2 k j l)).
Proof.
  intros HL HJ HE HO HP Ek Hj Hl. destruct (k_lam_fp_inv _ _ _ _ _ _ _ Ek) as (il & c & Ei & Ec & _ & _ & _ & _ & HK).
  rewrite il_is_third in Ei. apply Ok_inj in Ei as <-. destruct (norm3 fexp HE) as (c' & Ec' & Bc & Lc). rewrite Ec in Ec'. apply Ok_inj in Ec' as <-.
  apply (entry3 fexp fpow J j l c); auto; try lia. apply HK; lia.
Qed.

(*% an entry is +inf exactly where the last point of the quadrature is computed beyond 1 *)
(*@ C89_entries *)
Lemma fp3_entries : forall fexp fpow J L k j l, L <= 2 ^ 53 -> J <= 32 -> accurate_exp fexp -> overflowing_exp fexp -> powers_of_three fpow J ->
  k_lam_fp fexp fpow J L (fint 3) 300 = Ok k -> 0 <= j <= J + 1 -> 0 <= l < L ->
  (oversteps j l -> get2 k j l = finf) /\ (~ oversteps j l -> is_finite (get2 k j l) = true /\ (0 <= B2R (get2 k j l))%R).
Proof.
  intros fexp fpow J L k j l HL HJ HE HO HP Ek Hj Hl. destruct (kfb fexp fpow J L k j l HL HJ HE HO HP Ek Hj Hl) as [A B].
  split; [exact A|]. intros H. destruct (B H) as [B1 B2]. split; [exact B1|lra].
Qed.

(*% it first happens at multipole 794, in the band of scale 7 *)
(*@ C89_first_overflow *)
Lemma fp3_first : oversteps 7 794 /\ forall j l, 0 <= j -> l < 794 -> ~ oversteps j l.
Proof.
  split; [split; [vm_compute; discriminate|split; [vm_compute; discriminate|vm_compute; reflexivity]]|].
  intros j l Hj Hl (H1 & H2 & H3). assert (Hl0 : 0 < l) by (pose proof (Z.pow_pos_nonneg 3 j ltac:(lia) Hj); lia).
  assert (Hj7 : j <= 7). { apply Z.nlt_ge. intros G. assert (3 ^ 8 <= 3 ^ j) by (apply Z.pow_le_mono_r; lia). change (3 ^ 8) with 6561 in *. lia. }
  assert (A : forallb (fun j => forallb (fun l => negb ((3 ^ j <=? 3 * l) && (l <=? 3 ^ j) && flt (fint 1) (last_point (fdiv (fint l) (fint (3 ^ j)))))) (zrange 0 794)) (zrange 0 8) = true)
    by (vm_cast_no_check (eq_refl true)).
  rewrite forallb_forall in A. specialize (A j ltac:(apply In_zrange; lia)). cbv beta in A. rewrite forallb_forall in A.
  specialize (A l ltac:(apply In_zrange; lia)). cbv beta in A. apply Z.leb_le in H1, H2. rewrite H1, H2, H3 in A. discriminate.
Qed.

(*% so the axisymmetric filters contain +inf from band-limit 795 on, in every implementation *)
(*@ C89_filters_infinite *)
Lemma fp3_infinite : forall fexp fpow J L J_min psi phi, 795 <= L <= 2 ^ 53 -> J <= 32 -> accurate_exp fexp -> overflowing_exp fexp -> powers_of_three fpow J ->
  filters_axisym_fp fexp fpow J L J_min (fint 3) = Ok (psi, phi) \/
  filters_axisym_vectorised_fp fexp fpow J L J_min (fint 3) = Ok (psi, phi) \/
  filters_axisym_jax_fp fexp fpow J L J_min (fint 3) = Ok (psi, phi) -> 6 <= J ->
  (J_min <= 6 -> get2 psi 6 794 = finf) /\ (J_min = 7 -> get1 phi 794 = finf).
Proof.
  intros fexp fpow J L J_min psi phi HL HJ HE HO HP HF HJ6. rewrite axi_jax in HF.
  assert (X : exists k, k_lam_fp fexp fpow J L (fint 3) 300 = Ok k /\ 0 <= J_min < J /\
    (J_min <= 6 -> flt (fsub (get2 k 7 794) (get2 k 6 794)) (fint 0) = false -> get2 psi 6 794 = fsqrt (fsub (get2 k 7 794) (get2 k 6 794))) /\
    get1 phi 794 = fsqrt (get2 k J_min 794)).
  { destruct HF as [HF|HF].
    - destruct (loop_fp_inv _ _ _ _ _ _ _ _ HF) as (R & k & Ek & _ & _ & _ & A & _ & B). exists k. split; [exact Ek|]. split; [exact R|].
      split; [|apply B; lia]. intros H6 G. apply (A 6 794); auto; lia.
    - assert (HF' : filters_axisym_vectorised_fp fexp fpow J L J_min (fint 3) = Ok (psi, phi)) by tauto.
      destruct (vec_fp_inv _ _ _ _ _ _ _ _ HF') as (R & k & Ek & _ & _ & _ & A & B). exists k. split; [exact Ek|]. split; [exact R|].
      split; [|apply B; lia]. intros H6 G. rewrite A by lia. unfold fclip. change (6 + 1) with 7. rewrite G. reflexivity. }
  destruct X as (k & Ek & R & A & B).
  assert (K7 : get2 k 7 794 = finf) by (apply (proj1 (kfb fexp fpow J L k 7 794 ltac:(lia) HJ HE HO HP Ek ltac:(lia) ltac:(lia))), fp3_first).
  assert (K6 : get2 k 6 794 = fint 0).
  { destruct (k_lam_fp_inv _ _ _ _ _ _ _ Ek) as (il & c & _ & _ & _ & _ & _ & _ & HK). specialize (HK 6 794 ltac:(lia) ltac:(lia)).
    unfold k_entry_fp in HK. destruct HP as [_ HP]. rewrite !HP in HK by lia.
    replace (flt (fint 794) (fint (3 ^ (6 - 1)))) with false in HK by (vm_compute; reflexivity).
    replace (flt (fint (3 ^ 6)) (fint 794)) with true in HK by (vm_compute; reflexivity). now apply Ok_inj in HK. }
  split.
  - intros H6. rewrite A, K7, K6; [reflexivity|exact H6|]. rewrite K7, K6. vm_compute. reflexivity.
  - intros ->. rewrite B, K7. reflexivity.
Qed.

(** a complex product with a real infinity is not finite *)
Lemma inf_cmul (s : c64) : is_finite (fst (cmul (creal finf) s)) = false.
Proof. destruct s as [[| | |] [| | |]]; repeat match goal with b : bool |- _ => destruct b end; reflexivity. Qed.

(*% the vectorised directional filters then contain infinities or NaNs at every order *)
(*@ C89_directional *)
Lemma fp3_directional : forall fexp fpow flg J L N J_min spin psi phi, 795 <= L <= 2 ^ 53 -> 6 <= J <= 32 -> J_min <= 6 -> Z.abs spin <= 794 ->
  accurate_exp fexp -> overflowing_exp fexp -> powers_of_three fpow J ->
  filters_directional_vectorised_fp fexp fpow flg J L N J_min (fint 3) spin 0 = Ok (psi, phi) ->
  forall i, 0 <= i < 2 * L - 1 -> is_finite (fst (get3 psi 6 794 i)) = false.
Proof.
  intros fexp fpow flg J L N J_min spin psi phi HL HJ HJm Hs HE HO HP E i Hi.
  pose proof (dir_fp_fits fexp fpow flg J L N J_min (fint 3) spin 0 (psi, phi) ltac:(lia) (or_intror E)) as HF.
  assert (EA : exists kpsi kphi, filters_axisym_vectorised_fp fexp fpow J L J_min (fint 3) = Ok (kpsi, kphi)).
  { unfold filters_directional_vectorised_fp in E. change (negb (0 =? 0)) with false in E. cbv iota in E.
    apply bind_inv in E as ([kpsi kphi] & EA & _). eauto. }
  destruct EA as (kpsi & kphi & EA).
  destruct (vec_fp_inv _ _ _ _ _ _ _ _ EA) as (R & k & _ & Rp & Cp & Lp & _).
  rewrite (dir_vec_fp_ok fexp fpow flg J L N J_min (fint 3) spin kpsi kphi ltac:(lia) HF ltac:(lia) EA Rp Cp Lp) in E.
  apply Ok_inj in E. injection E as <- _.
  match goal with |- context[mk3 (J + 1) L ?p] => change p with (2 * L - 1) end.
  rewrite get3_mk by lia. unfold psiv, el_min. destruct (Z.leb_spec (Z.max (Z.abs spin) (Z.abs 0)) 794); [|lia].
  rewrite (proj1 (fp3_infinite fexp fpow J L J_min kpsi kphi HL ltac:(lia) HE HO HP (or_intror (or_introl EA)) ltac:(lia)) HJm).
  replace (fmul finf (wav_weight_vec_fp 794)) with finf by (vm_compute; reflexivity). apply inf_cmul.
Qed.

Lemma finf_not_fin : is_finite finf = false. Proof. reflexivity. Qed.

(*% the filter constructions return *)
(*@ C89_filters_never_raise *)
Lemma fp3_filters_total : forall fexp fpow J L J_min, 0 <= L <= 2 ^ 53 -> 0 <= J_min < J -> J <= 32 -> powers_of_three fpow J ->
  (exists psi phi, filters_axisym_fp fexp fpow J L J_min (fint 3) = Ok (psi, phi)) /\
  (exists psi phi, filters_axisym_vectorised_fp fexp fpow J L J_min (fint 3) = Ok (psi, phi)) /\
  (exists psi phi, filters_axisym_jax_fp fexp fpow J L J_min (fint 3) = Ok (psi, phi)).
Proof.
  intros fexp fpow J L J_min HL HJ HJ32 HP. destruct (fp3_total fexp fpow J L HL ltac:(lia) HP) as (k & Ek & Rk & Ck).
  assert (G : (J <=? J_min) || (J_min <? 0) = false) by (apply orb_false_iff; split; [apply Z.leb_gt|apply Z.ltb_ge]; lia).
  assert (V : exists psi phi, filters_axisym_vectorised_fp fexp fpow J L J_min (fint 3) = Ok (psi, phi)).
  { unfold filters_axisym_vectorised_fp. rewrite G, Ek. cbn [bind]. unfold row2. rewrite idx_ok by lia. cbn [bind]. eauto. }
  split; [|split; [exact V|destruct V as (psi & phi & E); exists psi, phi; rewrite axi_jax; exact E]].
  unfold filters_axisym_fp. rewrite G, Ek. cbn [bind]. rewrite zeros2_ok, zeros1_ok by lia. cbn [bind].
  rewrite (for_fill1 L _ 0 L (fun l => fsqrt (get2 k J_min l))); [|lia|lia|lia|].
  2:{ intros l g Hl. rewrite rd2_ok by lia. reflexivity. }
  cbn [bind].
  set (P := fun (_ : Z) (st : arr2 f64 * f64 * option f64) => rows (fst (fst st)) = J + 1 /\ cols (fst (fst st)) = L).
  assert (K0 : 0 < L -> forall j, 0 <= j <= J + 1 -> get2 k j 0 = fint 1).
  { intros HL0 j Hj. destruct (k_lam_fp_inv _ _ _ _ _ _ _ Ek) as (il & c & _ & _ & _ & _ & _ & _ & HK).
    specialize (HK j 0 ltac:(lia) ltac:(lia)). destruct (pow3_pred fpow J j 0 HP Hj HJ32 ltac:(lia)) as [P1 _].
    unfold k_entry_fp in HK. rewrite (proj2 P1) in HK; [now apply Ok_inj in HK|]. pose proof (Z.pow_pos_nonneg 3 j ltac:(lia) ltac:(lia)). lia. }
  match goal with |- exists psi phi, bind (for_ (zrange J_min (J + 1)) ?s ?bd) _ = _ =>
    destruct (for_prog P J_min (J + 1) s bd) as ([[psi p] t] & -> & _) end; [lia|split; reflexivity| |cbn [bind]; eauto].
  intros j [[a p] t] Hj (A & B). cbn [fst] in A, B.
  set (Q := fun (m : Z) (st : arr2 f64 * f64 * option f64) => rows (fst (fst st)) = J + 1 /\ cols (fst (fst st)) = L /\ (0 < m -> snd st <> None)).
  match goal with |- exists b, for_ _ ?s ?bd = _ /\ _ =>
    destruct (for_prog Q 0 L s bd) as (b & Eb & HQ) end; [lia|split; [exact A|split; [exact B|lia]]| |exists b; split; [exact Eb|]; split; apply HQ].
  intros m [[a' p'] t'] Hm (A' & B' & D'). cbn [fst snd] in A', B', D'.
  rewrite !rd2_ok by lia. cbn [bind]. rewrite !wr2_ok by lia.
  destruct (flt (fsub _ _) (fint 0)) eqn:E; cbn [bind].
  + destruct t' as [t'|].
    * eexists. split; [reflexivity|]. unfold Q. cbn [fst snd rows cols mk2]. repeat split; auto. discriminate.
    * exfalso. destruct (Z.eq_dec m 0) as [->|]; [|apply D'; [lia|reflexivity]].
      rewrite !K0 in E by lia. rewrite fsub11 in E. vm_compute in E. discriminate.
  + eexists. split; [reflexivity|]. unfold Q. cbn [fst snd rows cols mk2]. repeat split; auto. discriminate.
Qed.

(*% up to band-limit 794 every value of the vectorised and JAX filters is finite *)
(*@ C89_filters_finite *)
Lemma fp3_finite : forall fexp fpow J L J_min psi phi, L <= 794 -> J <= 32 -> accurate_exp fexp -> overflowing_exp fexp -> powers_of_three fpow J ->
  filters_axisym_vectorised_fp fexp fpow J L J_min (fint 3) = Ok (psi, phi) \/
  filters_axisym_jax_fp fexp fpow J L J_min (fint 3) = Ok (psi, phi) ->
  forall j l, 0 <= j <= J -> 0 <= l < L -> is_finite (get2 psi j l) = true /\ is_finite (get1 phi l) = true.
Proof.
  intros fexp fpow J L J_min psi phi HL HJ HE HO HP HF j l Hj Hl. rewrite axi_jax in HF.
  assert (HF' : filters_axisym_vectorised_fp fexp fpow J L J_min (fint 3) = Ok (psi, phi)) by tauto.
  destruct (vec_fp_inv _ _ _ _ _ _ _ _ HF') as (R & k & Ek & _ & _ & _ & A & B).
  assert (K : forall i, 0 <= i <= J + 1 -> fb (4800 * 16384) (get2 k i l)).
  { intros i Hi. apply (kfb fexp fpow J L k i l); auto; try lia. apply fp3_first; lia. }
  split.
  - rewrite A by lia. destruct (K (j + 1) ltac:(lia)) as [F1 B1]. destruct (K j ltac:(lia)) as [F0 B0].
    change (IZR (4800 * 16384)) with 78643200%R in *.
    destruct (fsub_ok _ _ F1 F0) as [Fd _]. { apply big. change (2 ^ 53) with 9007199254740992. apply Rabs_le. lra. }
    set (d := fsub _ _) in *. unfold fclip. destruct (flt d (fint 0)) eqn:E; [reflexivity|].
    apply fsqrt_ok; [exact Fd|]. apply flt_false_inv in E; [|exact Fd|reflexivity]. rewrite (fint_B2R 0) in E by lia. exact E.
  - rewrite B by lia. destruct (K J_min ltac:(lia)) as [F0 B0]. apply fsqrt_ok; [exact F0|lra].
Qed.

(** powers meeting the hypotheses *)
Definition pow3 (_ : f64) (j : Z) : f64 := if j <? 0 then c3 else fint (3 ^ j).
Lemma pow3_ok J : powers_of_three pow3 J.
Proof.
  split.
  - change (pow3 (fint 3) (-1)) with c3. destruct c3_val as [F E]. split; [exact F|]. rewrite E. unfold e54. lra.
  - intros j Hj. unfold pow3. destruct (Z.ltb_spec j 0); [lia|reflexivity].
Qed.
Definition big_exp (x : f64) : f64 := if flt (fint 710) x then finf else grid_exp x.
Lemma big_exp_ok : accurate_exp big_exp /\ overflowing_exp big_exp.
Proof.
  split.
  - intros x F Hx. unfold big_exp. rewrite flt_false; [now apply grid_accurate|reflexivity|exact F|]. rewrite (fint_B2R 710) by lia. lra.
  - intros x H. unfold big_exp. now rewrite H.
Qed.

(*% L = 1000 (J = 7): the library returns filters, and the wavelet of scale 6 is infinite at l = 794 *)
(*@E C89_example *)
Lemma ex_c89 : exists fexp fpow psi phi, accurate_exp fexp /\ overflowing_exp fexp /\ powers_of_three fpow 7 /\
  filters_axisym_vectorised_fp fexp fpow 7 1000 0 (fint 3) = Ok (psi, phi) /\ get2 psi 6 794 = finf.
Proof.
  destruct big_exp_ok as [H1 H2]. pose proof (pow3_ok 7) as H3.
  destruct (fp3_filters_total big_exp pow3 7 1000 0 ltac:(lia) ltac:(lia) ltac:(lia) H3) as (_ & (psi & phi & E) & _).
  exists big_exp, pow3, psi, phi. split; [exact H1|]. split; [exact H2|]. split; [exact H3|]. split; [exact E|].
  apply (fp3_infinite big_exp pow3 7 1000 0 psi phi ltac:(lia) ltac:(lia) H1 H2 H3 (or_intror (or_introl E)) ltac:(lia)). lia.
Qed.
