(** Statements and proofs for PropertiesFloatFour.v *)

From Coq Require Import ZArith Reals List Bool Lia Lra Psatz.
From Flocq Require Import Core Relative IEEE754.BinarySingleNaN.
From Verif Require Import Py PyFacts ModelSamples SamplesFacts ModelFilters FiltersFacts.
From Verif Require Import ModelFloat ModelFloatTrans ModelFloatJax ModelFloatJaxFilt SpecFp SpecFour FloatProps FloatThreeProps.
From Verif Require Import FloatFacts FloatDefault FloatAccProps FloatJaxFiltProps.
Import ListNotations.
Open Scope Z_scope.

#[local] Existing Instance gt53.
#[local] Existing Instance vexp.
#[local] Existing Instance mexp.

(*T The dilation 4 in binary64 *)
(*! From Coq Require Import ZArith Reals List Bool. *)
(*! From Flocq Require Import Core IEEE754.BinarySingleNaN. *)
(*! From Verif Require Import Py ModelSamples ModelFloat ModelFloatJaxFilt SpecFp SpecFour. *)

Definition c4 : f64 := fdiv (fint 1) (fint 4).
Definition k83 : f64 := fdiv (fmul (fint 2) (fint 4)) (fsub (fint 4) (fint 1)).
Lemma c4_val : is_finite c4 = true /\ B2R c4 = (/ 4)%R.
Proof.
  destruct (lit_B2R c4 false 4503599627370496 (-54)) as [A B]; [vm_compute; reflexivity|]. split; [exact A|]. rewrite B.
  cbn [cond_Zopp]. change (bpow radix2 (-54)) with (/ 18014398509481984)%R. lra.
Qed.
Lemma k83_val : is_finite k83 = true /\ (2 <= B2R k83 <= 3)%R.
Proof.
  destruct (lit_B2R k83 false 6004799503160661 (-51)) as [A B]; [vm_compute; reflexivity|]. split; [exact A|]. rewrite B.
  cbn [cond_Zopp]. change (bpow radix2 (-51)) with (/ 2251799813685248)%R. lra.
Qed.
Lemma il_is_fourth : pydiv (fint 1) (fint 4) = Ok c4.
Proof. apply pydiv_ok. vm_compute. reflexivity. Qed.
Lemma c_is_83 : pydiv (fmul (fint 2) (fint 4)) (fsub (fint 4) (fint 1)) = Ok k83.
Proof. apply pydiv_ok. vm_compute. reflexivity. Qed.

Lemma above_c4 (t : f64) : (B2R c4 < B2R t)%R -> (4503599627370497 * e54 <= B2R t)%R.
Proof.
  intros H. rewrite (proj2 c4_val) in H. destruct (grid_at t (-2)) as (T & E); [lia| |].
  { change (bpow radix2 (-2)) with (/ 4)%R. lra. }
  change (-2 - 52) with (-54) in E. change (bpow radix2 (-54)) with e54 in E. rewrite E in *.
  assert (4503599627370496 < T) by (apply lt_IZR; unfold e54 in H; lra).
  assert (4503599627370497 <= IZR T)%R by (apply (IZR_le 4503599627370497); lia). unfold e54. lra.
Qed.

(** the argument s of the bump *)
Definition sarg4 (t : f64) : f64 := fsub (fmul (fsub t c4) k83) (fint 1).
Definition sR4 (t : R) : R := rnd (rnd (rnd (t - B2R c4) * B2R k83) - 1).
Lemma sR_mono4 x y : (x <= y)%R -> (sR4 x <= sR4 y)%R.
Proof.
  intros H. unfold sR4. apply rnd_mono. pose proof (proj2 k83_val).
  assert (rnd (rnd (x - B2R c4) * B2R k83) <= rnd (rnd (y - B2R c4) * B2R k83))%R; [|lra].
  apply rnd_mono. assert (rnd (x - B2R c4) <= rnd (y - B2R c4))%R by (apply rnd_mono; lra). apply Rmult_le_compat_r; lra.
Qed.
Lemma sarg_ok4 t : is_finite t = true -> (B2R c4 <= B2R t <= 4)%R -> is_finite (sarg4 t) = true /\ B2R (sarg4 t) = sR4 (B2R t).
Proof.
  intros F Ht. destruct c4_val as [Fc Ec]. destruct k83_val as [Fk Bk]. unfold sarg4, sR4. pose proof (rnd_mono 0 (B2R t - B2R c4) ltac:(lra)) as M0. rewrite rnd_0 in M0.
  assert (M1 : (rnd (B2R t - B2R c4) <= 4)%R) by (apply (rnd_le_f _ (IZR 4)); [apply (format_int 4); lia|lra]).
  destruct (fsub_ok t c4 F Fc) as [F1 E1]. { apply big. rewrite Rabs_pos_eq by lra. change (2 ^ 53) with 9007199254740992. lra. }
  set (u := fsub t c4) in *. rewrite <- E1 in M0, M1 |- *.
  assert (M3 : (0 <= B2R u * B2R k83 <= 12)%R) by (split; nra).
  assert (M2 : (0 <= rnd (B2R u * B2R k83) <= 12)%R).
  { split; [apply rnd_pos; lra|apply (rnd_le_f _ (IZR 12)); [apply (format_int 12); lia|lra]]. }
  destruct (fmul_ok u k83 F1 Fk) as [F2 E2].
  { apply big. rewrite Rabs_pos_eq by lra. change (2 ^ 53) with 9007199254740992. lra. }
  set (w := fmul u k83) in *. rewrite <- E2 in M2 |- *.
  destruct (fsub_ok w (fint 1) F2) as [F3 E3]; [reflexivity| |].
  { rewrite one_B2R. apply big. change (2 ^ 53) with 9007199254740992. apply Rabs_le. lra. }
  rewrite one_B2R in E3. split; [exact F3|exact E3].
Qed.
Lemma sR_lit4 (t : f64) s m e v s' m' e' : B2SF t = SpecFloat.S754_finite s m e -> (IZR (cond_Zopp s (Zpos m)) * bpow radix2 e)%R = v ->
  (B2R c4 <= v <= 4)%R -> B2SF (sarg4 t) = SpecFloat.S754_finite s' m' e' -> sR4 v = (IZR (cond_Zopp s' (Zpos m')) * bpow radix2 e')%R.
Proof.
  intros H1 H2 H3 H4. destruct (lit_B2R t s m e H1) as [F E]. rewrite H2 in E. rewrite <- E in H3 |- *.
  destruct (sarg_ok4 t F H3) as (_ & <-). now destruct (lit_B2R (sarg4 t) s' m' e' H4).
Qed.
Lemma s_low4 : (-1 + eps <= sR4 (4503599627370497 * e54))%R.
Proof.
  assert (E : sR4 (4503599627370497 * e54) = (IZR (cond_Zopp true 9007199254740991) * bpow radix2 (-53))%R).
  { apply (sR_lit4 (lit 4503599627370497 (-54)) false 4503599627370497 (-54)); try (vm_compute; reflexivity).
    rewrite (proj2 c4_val). unfold e54. lra. }
  rewrite E. cbn [cond_Zopp]. change (bpow radix2 (-53)) with eps. change (IZR (- (9007199254740991))) with (-9007199254740991)%R. unfold eps. lra.
Qed.
Lemma s_high4 : (sR4 (1 - eps) <= 1 - eps)%R.
Proof.
  assert (E : sR4 (1 - eps) = (IZR (cond_Zopp false 9007199254740988) * bpow radix2 (-53))%R).
  { apply (sR_lit4 (lit 9007199254740991 (-53)) false 9007199254740991 (-53)); try (vm_compute; reflexivity).
    - cbn [cond_Zopp]. change (bpow radix2 (-53)) with eps. unfold eps. lra.
    - rewrite (proj2 c4_val). unfold eps. lra. }
  rewrite E. cbn [cond_Zopp]. change (bpow radix2 (-53)) with eps. unfold eps. lra.
Qed.

Lemma expo4_unfold t : expo t (fint 4) = pydiv (fint (-2)) (fsub (fint 1) (fmul (sarg4 t) (sarg4 t))).
Proof. unfold expo. rewrite il_is_fourth, c_is_83. reflexivity. Qed.

(** strictly inside the support the exponent is at most -2 *)
Lemma point4 t : is_finite t = true -> (B2R c4 < B2R t < 1)%R ->
  exists e, expo t (fint 4) = Ok e /\ is_finite e = true /\ (B2R e <= -2)%R.
Proof.
  intros F Ht. rewrite expo4_unfold. destruct (sarg_ok4 t F) as (Fs & Es); [lra|]. set (s := sarg4 t) in *.
  assert (H1 : (/ 4 <= B2R t)%R) by (pose proof (proj2 c4_val); lra).
  assert (Bs : (- (1 - eps) <= B2R s <= 1 - eps)%R).
  { rewrite Es. split.
    - pose proof (sR_mono4 _ _ (above_c4 t ltac:(lra))). pose proof s_low4. lra.
    - pose proof (sR_mono4 _ _ (below_1 t H1 ltac:(lra))). pose proof s_high4. lra. }
  pose proof eps_small as He.
  assert (Bss : (0 <= B2R s * B2R s <= 1 - eps)%R).
  { split; [nra|]. assert (0 <= ((1 - eps) - B2R s) * ((1 - eps) + B2R s))%R by (apply Rmult_le_pos; lra). nra. }
  destruct (fmul_ok s s Fs Fs) as [F1 E1].
  { apply big. rewrite Rabs_pos_eq by lra. change (2 ^ 53) with 9007199254740992. lra. }
  set (q := fmul s s) in *.
  assert (Bq : (0 <= B2R q <= 1 - eps)%R).
  { rewrite E1. split; [now apply rnd_pos|apply rnd_le_f; [apply fmt_1eps|lra]]. }
  destruct (fsub_ok (fint 1) q eq_refl F1) as [F2 E2].
  { rewrite one_B2R. apply big. rewrite Rabs_pos_eq by lra. change (2 ^ 53) with 9007199254740992. lra. }
  rewrite one_B2R in E2. set (u := fsub (fint 1) q) in *.
  assert (Bu : (eps <= B2R u <= 1)%R).
  { rewrite E2. split.
    - apply rnd_ge_f; [|lra]. replace eps with (IZR 1 * bpow radix2 (-53))%R by (change (bpow radix2 (-53)) with eps; ring). apply fmt_grid; lia.
    - apply (rnd_le_f _ (IZR 1)); [apply (format_int 1); lia|lra]. }
  rewrite pydiv_ok by (apply feq_false; [exact F2|reflexivity|rewrite (fint_B2R 0) by lia; lra]).
  assert (Bd : (- IZR (2 ^ 54) <= -2 / B2R u <= -2)%R).
  { change (2 ^ 54) with 18014398509481984. assert (I : (1 <= / B2R u <= 9007199254740992)%R).
    { split; [rewrite <- Rinv_1; apply Rinv_le_contravar; lra|]. rewrite <- (Rinv_inv 9007199254740992). apply Rinv_le_contravar; unfold eps in Bu; lra. }
    unfold Rdiv. lra. }
  destruct (fdiv_ok (fint (-2)) u) as [F3 E3]; [reflexivity|lra| |].
  { rewrite (fint_B2R (-2)) by lia. apply Rle_lt_trans with (bpow radix2 54); [|apply bpow_lt; lia].
    apply abs_round_le_generic; try typeclasses eauto; [apply generic_format_bpow; vm_compute; discriminate|].
    change (bpow radix2 54) with (IZR (2 ^ 54)). apply Rabs_le. change (2 ^ 54) with 18014398509481984 in *. lra. }
  rewrite (fint_B2R (-2)) in E3 by lia.
  eexists. split; [reflexivity|]. split; [exact F3|]. rewrite E3. apply (rnd_le_f _ (IZR (-2))); [apply (format_int (-2)); lia|lra].
Qed.

(** ** the abscissae: starting from a multiple of 2^-53 they never exceed 1 *)
Definition good (a : f64) : Prop := is_finite a = true /\ (/ 4 <= B2R a < 1)%R /\ exists A, 0 <= A <= 2 ^ 53 /\ B2R a = (IZR A * eps)%R.
Lemma fmt_eps A : Z.abs A <= 2 ^ 53 -> generic_format radix2 (SpecFloat.fexp 53 1024) (IZR A * eps)%R.
Proof. intros H. change eps with (bpow radix2 (-53)). apply fmt_grid; lia. Qed.
Lemma rnd_fmt x : generic_format radix2 (SpecFloat.fexp 53 1024) x -> rnd x = x.
Proof. intros H. apply round_generic; [typeclasses eauto|exact H]. Qed.
Lemma c4_good : good c4.
Proof.
  destruct c4_val as [F E]. split; [exact F|]. split; [lra|]. exists (2 ^ 51). split; [lia|]. rewrite E. change (2 ^ 51) with 2251799813685248. unfold eps. lra.
Qed.
Lemma stp_ok4 a : good a ->
  pydiv (fsub (fint 1) a) (fint 300) = Ok (stp a) /\ is_finite (stp a) = true /\ (0 <= B2R (stp a) <= / 256)%R /\
  ((1 - B2R a) * (1 - eps) <= 300 * B2R (stp a) <= (1 - B2R a) * (1 + eps))%R.
Proof.
  intros (F & Ha & A & HA & EA).
  unfold stp. destruct (fsub_ok (fint 1) a eq_refl F) as [F1 E1].
  { rewrite one_B2R. apply big. rewrite Rabs_pos_eq by lra. change (2 ^ 53) with 9007199254740992. lra. }
  rewrite one_B2R in E1. set (d := fsub (fint 1) a) in *.
  assert (D : B2R d = (1 - B2R a)%R).
  { rewrite E1. apply rnd_fmt. replace (1 - B2R a)%R with (IZR (2 ^ 53 - A) * eps)%R; [apply fmt_eps; lia|].
    rewrite minus_IZR, EA. change (2 ^ 53) with 9007199254740992. unfold eps. lra. }
  clear E1. pose proof (below_1 a ltac:(lra) ltac:(lra)) as N. pose proof eps_small.
  destruct (fdiv_ok d (fint 300) F1) as [F2 E2].
  { rewrite (fint_B2R 300) by lia. lra. }
  { rewrite (fint_B2R 300) by lia. apply big. rewrite Rabs_pos_eq by lra. change (2 ^ 53) with 9007199254740992. lra. }
  rewrite (fint_B2R 300) in E2 by lia. split; [apply pydiv_ok, f300|]. split; [exact F2|]. rewrite E2. split.
  - split; [apply rnd_pos; lra|]. replace (/ 256)%R with (IZR 1 * bpow radix2 (-8))%R by (change (bpow radix2 (-8)) with (/ 256)%R; lra).
    apply rnd_le_f; [apply fmt_grid; lia|]. change (bpow radix2 (-8)) with (/ 256)%R. lra.
  - assert (A2 : (Rabs (rnd (B2R d / 300) - B2R d / 300) <= eps * (B2R d / 300))%R).
    { replace (B2R d / 300)%R with (Rabs (B2R d / 300)) at 3 by (apply Rabs_pos_eq; lra). apply rnd_rel.
      rewrite Rabs_pos_eq by lra. apply Rle_trans with (bpow radix2 (-62)); [apply bpow_le; lia|].
      change (bpow radix2 (-62)) with (/ 4611686018427387904)%R. unfold eps in N. lra. }
    apply Rabs_le_inv in A2. rewrite <- D. lra.
Qed.

Lemma absc4 a i : good a -> 0 <= i <= 300 ->
  let t := absc a (stp a) i in is_finite t = true /\ (B2R a <= B2R t <= 1)%R.
Proof.
  intros G Hi. cbv zeta. destruct (stp_ok4 a G) as (_ & Fh & Bh & Ah). set (h := stp a) in *. destruct G as (F & Ha & A & HA & EA).
  assert (Hi' : (0 <= IZR i <= 300)%R) by (split; [apply (IZR_le 0)|apply (IZR_le _ 300)]; lia). pose proof eps_small.
  assert (B3 : (0 <= IZR i * B2R h <= 1 - B2R a + eps)%R) by (split; nra).
  unfold absc. destruct (fmul_ok (fint i) h) as [F1 E1]; [apply fint_fin; lia|exact Fh| |].
  { rewrite (fint_B2R i) by lia. apply big. rewrite Rabs_pos_eq by lra. change (2 ^ 53) with 9007199254740992. lra. }
  rewrite (fint_B2R i) in E1 by lia. set (m := fmul (fint i) h) in *.
  assert (B4 : (0 <= B2R m <= 1 - B2R a + eps)%R).
  { rewrite E1. split; [apply rnd_pos; lra|]. apply rnd_le_f; [|lra].
    assert (1 <= A) by (apply le_IZR; unfold eps in EA; lra).
    replace (1 - B2R a + eps)%R with (IZR (2 ^ 53 - A + 1) * eps)%R; [apply fmt_eps; lia|].
    rewrite plus_IZR, minus_IZR, EA. change (2 ^ 53) with 9007199254740992. unfold eps. lra. }
  destruct (fadd_ok a m F F1) as [F2 E2].
  { apply big. rewrite Rabs_pos_eq by lra. change (2 ^ 53) with 9007199254740992. lra. }
  split; [exact F2|]. rewrite E2. split.
  - apply rnd_ge_f; [apply fmt|lra].
  - rewrite <- rnd_1eps. apply rnd_mono. lra.
Qed.

Lemma not_end4_true t : is_finite t = true -> not_end_fp t c4 = true -> B2R t <> B2R c4 /\ B2R t <> 1%R.
Proof.
  intros F H. unfold not_end_fp in H. rewrite negb_true_iff, orb_false_iff in H. destruct H as [H1 H2]. split; intros E.
  - rewrite (proj2 (feq_iff t c4 F (proj1 c4_val)) E) in H1. discriminate.
  - rewrite (proj2 (feq_iff t (fint 1) F eq_refl)) in H2; [discriminate|]. rewrite one_B2R. exact E.
Qed.

Lemma int_total4 fexp t : is_finite t = true -> (B2R c4 <= B2R t <= 1)%R -> not_end_fp t c4 = true ->
  exists f, tiling_integrand_fp fexp t (fint 4) = Ok f.
Proof.
  intros F Ht H. apply not_end4_true in H as [H1 H2]; [|exact F]. rewrite integrand_expo.
  destruct (point4 t F) as (e & -> & _); [lra|]. cbn [bind]. eauto.
Qed.
Lemma int_fb4 fexp t : accurate_exp fexp -> is_finite t = true -> (B2R c4 <= B2R t <= 1)%R -> not_end_fp t c4 = true ->
  exists f, tiling_integrand_fp fexp t (fint 4) = Ok f /\ fb 4 f.
Proof.
  intros HE F Ht H. apply not_end4_true in H as [H1 H2]; [|exact F]. rewrite integrand_expo.
  destruct (point4 t F) as (e & -> & Fe & Be); [lra|]. cbn [bind]. eexists. split; [reflexivity|]. change 4 with (1 * 4).
  destruct (HE e Fe Be) as (G1 & G2 & G3). apply fb_fdiv; try lia.
  - split; [exact G1|]. pose proof (exp_m2 _ Be). change (bpow radix2 (-53)) with eps in G3. pose proof eps_small. apply Rabs_le_inv in G3. lra.
  - pose proof (proj2 c4_val). lra.
Qed.

(** ** the quadrature *)
Lemma part_unfold4 fexp a : good a ->
  part_scaling_fn_fp fexp a (fint 1) 300 (fint 4) = for_ (zrange 0 300) (fint 0) (pbody fexp a (stp a) (fint 4)).
Proof.
  intros G. unfold part_scaling_fn_fp. destruct (stp_ok4 a G) as (-> & _). cbn [bind]. destruct G as (F & Ha & _).
  rewrite feq_false; [reflexivity|exact F|reflexivity|rewrite one_B2R; lra].
Qed.
Lemma body_unfold4 fexp a h i S : pbody fexp a h (fint 4) i S =
  if not_end_fp (absc a h i) c4 && not_end_fp (absc a h (i + 1)) c4 then
    f1 <- tiling_integrand_fp fexp (absc a h i) (fint 4) ;;
    f2 <- tiling_integrand_fp fexp (absc a h (i + 1)) (fint 4) ;;
    Ok (fadd S (fdiv (fmul (fadd f1 f2) h) (fint 2)))
  else Ok S.
Proof. unfold pbody. rewrite il_is_fourth. reflexivity. Qed.

Lemma in_c4 a i : good a -> 0 <= i <= 300 -> is_finite (absc a (stp a) i) = true /\ (B2R c4 <= B2R (absc a (stp a) i) <= 1)%R.
Proof.
  intros G Hi. destruct (absc4 a i G Hi) as (F1 & B1). destruct G as (_ & Ha & _). rewrite (proj2 c4_val). split; [exact F1|lra].
Qed.
Lemma part_total4 fexp a : good a -> exists v, part_scaling_fn_fp fexp a (fint 1) 300 (fint 4) = Ok v.
Proof.
  intros G0. rewrite part_unfold4 by assumption.
  destruct (for_prog (fun _ _ => True) 0 300 (fint 0) (pbody fexp a (stp a) (fint 4))) as (v & E & _); [lia|exact I| |eauto].
  intros i S Hi _. rewrite body_unfold4. destruct (_ && _) eqn:G; [|eauto]. apply andb_true_iff in G as [G1 G2].
  destruct (in_c4 a i G0 ltac:(lia)) as (F1 & B1). destruct (in_c4 a (i + 1) G0 ltac:(lia)) as (F2 & B2).
  destruct (int_total4 fexp _ F1 B1 G1) as (f1 & ->). destruct (int_total4 fexp _ F2 B2 G2) as (f2 & ->). cbn [bind]. eauto.
Qed.

Lemma body4 fexp a i S : accurate_exp fexp -> good a -> 0 <= i < 300 -> fb (16 * i) S ->
  exists S', pbody fexp a (stp a) (fint 4) i S = Ok S' /\ fb (16 * (i + 1)) S' /\ (B2R S <= B2R S')%R.
Proof.
  intros HE G0 Hi HS. rewrite body_unfold4.
  destruct (in_c4 a i G0 ltac:(lia)) as (F1 & B1). destruct (in_c4 a (i + 1) G0 ltac:(lia)) as (F2 & B2).
  destruct (stp_ok4 a G0) as (_ & Fh & Bh & _).
  destruct (_ && _) eqn:G.
  - apply andb_true_iff in G as [G1 G2].
    destruct (int_fb4 fexp _ HE F1 B1 G1) as (f1 & -> & D1). destruct (int_fb4 fexp _ HE F2 B2 G2) as (f2 & -> & D2). cbn [bind].
    eexists. split; [reflexivity|].
    assert (X : fb 16 (fdiv (fmul (fadd f1 f2) (stp a)) (fint 2))).
    { change 16 with (8 * 2). apply fb_fdiv; try lia; [|rewrite (fint_B2R 2) by lia; lra]. apply fb_fmul; [lia| |exact Fh|lra]. change 8 with (4 + 4). apply fb_fadd; auto. lia. }
    set (x := fdiv _ _) in *. split; [replace (16 * (i + 1)) with (16 * i + 16) by ring; apply fb_fadd; auto; lia|].
    destruct HS as [FS BS]. destruct X as [Fx Bx].
    assert (Hi' : (IZR (16 * i) <= 4800)%R) by (apply (IZR_le _ 4800); lia).
    destruct (fadd_ok S x FS Fx) as [_ E]; [apply big; rewrite Rabs_pos_eq by lra; change (2 ^ 53) with 9007199254740992; lra|].
    rewrite E. apply rnd_ge_f; [apply fmt|lra].
  - eexists. split; [reflexivity|]. split; [|lra]. destruct HS as [A B]. split; [exact A|]. rewrite mult_IZR, plus_IZR in *. lra.
Qed.

Lemma part_fin4 fexp a : accurate_exp fexp -> good a -> exists v, part_scaling_fn_fp fexp a (fint 1) 300 (fint 4) = Ok v /\ fb 4800 v.
Proof.
  intros HE G. rewrite part_unfold4 by assumption. apply (for_prog (fun i S => fb (16 * i) S)); [lia|apply fb0|].
  intros i S Hi HS. destruct (body4 fexp a i S) as (S' & E & B & _); auto; try lia. eauto.
Qed.

(** ** the normalisation lies between 2^-14 and 4800 *)
Lemma norm_step4 (fexp : f64 -> f64) S : accurate_exp fexp -> fb (16 * 150) S ->
  exists S', pbody fexp c4 (stp c4) (fint 4) 150 S = Ok S' /\ (/ 16384 <= B2R S')%R.
Proof.
  intros HE HS. rewrite body_unfold4. set (t1 := absc c4 (stp c4) 150). set (t2 := absc c4 (stp c4) (150 + 1)).
  assert (N1 : not_end_fp t1 c4 = true) by (vm_compute; reflexivity). assert (N2 : not_end_fp t2 c4 = true) by (vm_compute; reflexivity).
  rewrite N1, N2. cbn [andb]. pose proof (proj2 c4_val) as Ec. pose proof (proj1 c4_val) as Fc.
  destruct (absc4 c4 150 c4_good ltac:(lia)) as (F1 & B1). destruct (absc4 c4 151 c4_good ltac:(lia)) as (F2 & B2).
  change (absc c4 (stp c4) 150) with t1 in F1, B1. change (absc c4 (stp c4) 151) with t2 in F2, B2.
  assert (X : forall t e, is_finite t = true -> (/ 4 <= B2R t)%R -> flt t (fint 1) = true -> not_end_fp t c4 = true -> (B2R c4 <= B2R t)%R ->
     expo t (fint 4) = Ok e -> flt (fint (-3)) e = true ->
     exists f, tiling_integrand_fp fexp t (fint 4) = Ok f /\ fb 4 f /\ (/ 32 <= B2R f)%R).
  { intros t e Ft B Hlt Nt Bc Ee He. apply flt_iff in Hlt; [|exact Ft|reflexivity]. rewrite one_B2R in Hlt.
    destruct (int_fb4 fexp t HE Ft ltac:(lra) Nt) as (f & Ef & Df). exists f. split; [exact Ef|]. split; [exact Df|].
    apply not_end4_true in Nt as [Nt _]; [|exact Ft]. destruct (point4 t Ft) as (e' & Ee' & Fe & Be); [lra|]. rewrite Ee in Ee'. apply Ok_inj in Ee' as <-.
    rewrite integrand_expo, Ee in Ef. cbn [bind] in Ef. apply Ok_inj in Ef as <-.
    apply flt_iff in He; [|reflexivity|exact Fe]. rewrite (fint_B2R (-3)) in He by lia.
    destruct (HE e Fe Be) as (G1 & G2 & G3). change (bpow radix2 (-53)) with eps in G3. apply Rabs_le_inv in G3. pose proof eps_small.
    assert (E3 : (/ 27 <= exp (B2R e))%R).
    { apply Rle_trans with (exp (-3)); [|left; now apply exp_increasing]. change (-3)%R with (- (3))%R. rewrite exp_Ropp. apply Rinv_le_contravar; [apply exp_pos|].
      replace 3%R with (1 + 1 + 1)%R by ring. rewrite !exp_plus. pose proof exp_le_3. pose proof (exp_pos 1). replace 27%R with (3 * 3 * 3)%R by ring.
      apply Rmult_le_compat; try nra. }
    destruct (fdiv_ok (fexp e) t G1) as [_ E].
    - lra.
    - apply big. assert (I : (0 < / B2R t <= 4)%R) by (split; [apply Rinv_0_lt_compat; lra|rewrite <- (Rinv_inv 4); apply Rinv_le_contravar; lra]).
      pose proof (exp_m2 _ Be). rewrite Rabs_pos_eq; unfold Rdiv; change (2 ^ 53) with 9007199254740992; nra.
    - rewrite E. replace (/ 32)%R with (IZR 1 * bpow radix2 (-5))%R by (change (bpow radix2 (-5)) with (/ 32)%R; lra). apply rnd_ge_f; [apply fmt_grid; lia|].
      change (bpow radix2 (-5)) with (/ 32)%R. assert (I : (1 <= / B2R t)%R) by (rewrite <- Rinv_1; apply Rinv_le_contravar; lra). unfold Rdiv. nra. }
  assert (O1 : okres (fun e => flt (fint (-3)) e) (expo t1 (fint 4)) = true) by (vm_compute; reflexivity).
  assert (O2 : okres (fun e => flt (fint (-3)) e) (expo t2 (fint 4)) = true) by (vm_compute; reflexivity).
  assert (K1 : flt t1 (fint 1) = true) by (vm_compute; reflexivity). assert (K2 : flt t2 (fint 1) = true) by (vm_compute; reflexivity).
  clearbody t1 t2. destruct (okres_inv _ _ O1) as (e1 & E1 & P1). destruct (okres_inv _ _ O2) as (e2 & E2 & P2).
  destruct (X t1 e1 F1 ltac:(lra) K1 N1 ltac:(lra) E1 P1) as (f1 & -> & D1 & L1).
  destruct (X t2 e2 F2 ltac:(lra) K2 N2 ltac:(lra) E2 P2) as (f2 & -> & D2 & L2). cbn [bind].
  eexists. split; [reflexivity|].
  destruct (stp_ok4 c4 c4_good) as (_ & Fh & Bh & Ah). set (h := stp c4) in *. pose proof eps_small.
  assert (Lh : (/ 512 <= B2R h)%R) by (rewrite Ec in Ah; lra).
  assert (P : forall n, 0 <= n <= 20 -> generic_format radix2 (SpecFloat.fexp 53 1024) (bpow radix2 (- n))).
  { intros n Hn. replace (bpow radix2 (- n)) with (IZR 1 * bpow radix2 (- n))%R by ring. apply fmt_grid; lia. }
  destruct D1 as [Ff1 Bf1]. destruct D2 as [Ff2 Bf2]. destruct HS as [FS BS]. change (IZR (16 * 150)) with 2400%R in BS.
  assert (BG : forall x, (0 <= x <= 100000)%R -> (Rabs (rnd x) < bpow radix2 1024)%R).
  { intros x Hx. apply big. rewrite Rabs_pos_eq by lra. change (2 ^ 53) with 9007199254740992. lra. }
  assert (UB : forall x k, 0 <= k <= 2 ^ 53 -> (x <= IZR k)%R -> (rnd x <= IZR k)%R) by (intros x k Hk Hx; apply rnd_le_f; [apply format_int; lia|exact Hx]).
  destruct (fadd_ok f1 f2 Ff1 Ff2) as [Fs Es]; [apply BG; lra|]. set (s := fadd f1 f2) in *.
  assert (Ls : (/ 16 <= B2R s <= 8)%R).
  { rewrite Es. split; [apply (rnd_ge_f _ (bpow radix2 (- (4)))); [apply P; lia|change (bpow radix2 (- (4))) with (/ 16)%R; lra]|apply (UB _ 8); lia || lra]. }
  destruct (fmul_ok s h Fs Fh) as [Fm Em]; [apply BG; split; nra|]. set (m := fmul s h) in *.
  assert (Lm : (/ 8192 <= B2R m <= 8)%R).
  { rewrite Em. split; [apply (rnd_ge_f _ (bpow radix2 (- (13)))); [apply P; lia|change (bpow radix2 (- (13))) with (/ 8192)%R; nra]|apply (UB _ 8); [lia|nra]]. }
  destruct (fdiv_ok m (fint 2) Fm) as [Fx Ex]; [rewrite (fint_B2R 2) by lia; lra|rewrite (fint_B2R 2) by lia; apply BG; lra|].
  rewrite (fint_B2R 2) in Ex by lia. set (x := fdiv m (fint 2)) in *.
  assert (Lx : (/ 16384 <= B2R x <= 4)%R).
  { rewrite Ex. split; [apply (rnd_ge_f _ (bpow radix2 (- (14)))); [apply P; lia|change (bpow radix2 (- (14))) with (/ 16384)%R; lra]|apply (UB _ 4); lia || lra]. }
  destruct (fadd_ok S x FS Fx) as [_ E]; [apply BG; lra|]. rewrite E.
  apply (rnd_ge_f _ (bpow radix2 (- (14)))); [apply P; lia|change (bpow radix2 (- (14))) with (/ 16384)%R; lra].
Qed.

Lemma norm4 fexp : accurate_exp fexp -> exists c, part_scaling_fn_fp fexp c4 (fint 1) 300 (fint 4) = Ok c /\ fb 4800 c /\ (/ 16384 <= B2R c)%R.
Proof.
  intros HE. rewrite part_unfold4 by apply c4_good.
  destruct (for_prog (fun i S => fb (16 * i) S /\ (150 < i -> (/ 16384 <= B2R S)%R)) 0 300 (fint 0) (pbody fexp c4 (stp c4) (fint 4))) as (c & E & B & Lc).
  - lia.
  - split; [apply fb0|lia].
  - intros i S Hi [HS HL]. destruct (body4 fexp c4 i S HE c4_good Hi HS) as (S' & E & B & M). exists S'. split; [exact E|]. split; [exact B|].
    intros Hi'. destruct (Z.eq_dec i 150) as [->|Hn]; [|specialize (HL ltac:(lia)); lra].
    destruct (norm_step4 fexp S HE HS) as (S'' & E' & B'). rewrite E in E'. apply Ok_inj in E' as <-. exact B'.
  - exists c. split; [exact E|]. split; [exact B|]. apply Lc. lia.
Qed.

(** ** the entries *)
Lemma four_le j : 0 <= j <= 26 -> 1 <= 4 ^ j <= 2 ^ 52 /\ 4 ^ j * 4 ^ (26 - j) = 2 ^ 52.
Proof.
  intros H. split; [split; [apply (Z.pow_le_mono_r 4 0 j); lia|]|].
  - apply Z.le_trans with (4 ^ 26); [apply Z.pow_le_mono_r; lia|vm_compute; discriminate].
  - rewrite <- Z.pow_add_r by lia. replace (j + (26 - j)) with 26 by ring. reflexivity.
Qed.
Lemma frac4 j l : 0 <= j <= 26 -> 4 ^ j <= 4 * l -> l <= 4 ^ j -> let a := fdiv (fint l) (fint (4 ^ j)) in
  pydiv (fint l) (fint (4 ^ j)) = Ok a /\ is_finite a = true /\ (B2R a <= 1)%R /\ (B2R a <> 1%R -> good a).
Proof.
  intros Hj H1 H2. cbv zeta. destruct (four_le j Hj) as [HT HQ]. assert (HT' : (1 <= IZR (4 ^ j))%R) by (apply (IZR_le 1); lia).
  assert (R : (1 / 4 <= IZR l / IZR (4 ^ j) <= 1)%R).
  { apply IZR_le in H1, H2. rewrite mult_IZR in H1. split.
    - apply Rmult_le_reg_r with (IZR (4 ^ j)); [lra|]. unfold Rdiv. rewrite (Rmult_assoc (IZR l)), Rinv_l by lra. lra.
    - apply Rmult_le_reg_r with (IZR (4 ^ j)); [lra|]. unfold Rdiv. rewrite Rmult_assoc, Rinv_l by lra. lra. }
  destruct (fdiv_ok (fint l) (fint (4 ^ j))) as [F E]; [apply fint_fin; lia|rewrite fint_B2R by lia; lra| |].
  { rewrite !fint_B2R by lia. apply big. rewrite Rabs_pos_eq by lra. change (2 ^ 53) with 9007199254740992. lra. }
  rewrite !fint_B2R in E by lia. split; [apply pydiv_ok, feq_false; [apply fint_fin; lia|reflexivity|rewrite !fint_B2R by lia; lra]|].
  split; [exact F|].
  set (q := 4 ^ (26 - j)) in *. assert (Q0 : 0 < q) by (apply Z.pow_pos_nonneg; lia).
  assert (X : (IZR l / IZR (4 ^ j) = IZR (2 * l * q) * eps)%R).
  { apply Rmult_eq_reg_r with (IZR (4 ^ j)); [|lra]. unfold Rdiv. rewrite Rmult_assoc, Rinv_l, Rmult_1_r by lra.
    apply (f_equal IZR) in HQ. rewrite mult_IZR in HQ. rewrite !mult_IZR.
    replace (2 * IZR l * IZR q * eps * IZR (4 ^ j))%R with (IZR l * (2 * (IZR (4 ^ j) * IZR q) * eps))%R by ring. rewrite HQ.
    change (2 ^ 52) with 4503599627370496. unfold eps. lra. }
  assert (BA : 0 <= 2 * l * q <= 2 ^ 53) by nia.
  assert (EV : B2R (fdiv (fint l) (fint (4 ^ j))) = (IZR l / IZR (4 ^ j))%R).
  { rewrite E. apply rnd_fmt. rewrite X. apply fmt_eps. lia. }
  rewrite EV. split; [lra|]. intros Hn. split; [exact F|]. rewrite EV. split; [lra|]. exists (2 * l * q). split; [exact BA|exact X].
Qed.

Lemma pow4_pred fpow J j l : powers_of_four fpow J -> 0 <= j <= J + 1 -> J <= 25 -> 0 <= l <= 2 ^ 53 ->
  (flt (fint l) (fpow (fint 4) (j - 1)) = true <-> 4 * l < 4 ^ j) /\ (flt (fpow (fint 4) j) (fint l) = true <-> 4 ^ j < l).
Proof.
  intros [[F0 B0] HP] Hj HJ Hl. destruct (fint_ok l ltac:(lia)) as [Fl El]. split.
  - destruct (Z.eq_dec j 0) as [->|Hn].
    + change (0 - 1) with (-1). rewrite flt_iff, El by auto. change (4 ^ 0) with 1. split.
      * intros H. assert (l < 1); [apply lt_IZR; lra|lia].
      * intros H. replace l with 0 by lia. apply B0.
    + rewrite HP by lia. pose proof (four_le (j - 1) ltac:(lia)). rewrite flt_iff, El, fint_B2R by (auto; try (apply fint_fin); lia).
      replace (4 ^ j) with (4 * 4 ^ (j - 1)) by (rewrite <- Z.pow_succ_r by lia; f_equal; lia). split; intros H'; [apply lt_IZR in H'; lia|apply IZR_lt; lia].
  - rewrite HP by lia. pose proof (four_le j ltac:(lia)). rewrite flt_iff, El, fint_B2R by (auto; try (apply fint_fin); lia).
    split; [apply lt_IZR|apply IZR_lt].
Qed.

Lemma entry_total4 fexp fpow J j l c : powers_of_four fpow J -> J <= 25 -> 0 <= j <= J + 1 -> 0 <= l <= 2 ^ 53 ->
  exists v, k_entry_fp fexp fpow j l (fint 4) 300 c = Ok v.
Proof.
  intros H HJ Hj Hl. destruct (pow4_pred fpow J j l H Hj HJ Hl) as [P1 P2]. unfold k_entry_fp.
  destruct (flt (fint l) _) eqn:E1; [eauto|]. destruct (flt (fpow _ j) _) eqn:E2; [eauto|].
  assert (Q1 : 4 ^ j <= 4 * l) by (apply Z.nlt_ge; intros G; apply P1 in G; congruence).
  assert (Q2 : l <= 4 ^ j) by (apply Z.nlt_ge; intros G; apply P2 in G; congruence).
  destruct H as [_ HP]. rewrite HP by lia. destruct (frac4 j l ltac:(lia) Q1 Q2) as (-> & Fa & Ba & Ga). set (a := fdiv _ _) in *. cbn [bind].
  destruct (Req_dec (B2R a) 1) as [Ea|Ea].
  - unfold part_scaling_fn_fp. rewrite (pydiv_ok _ (fint 300)) by exact f300. cbn [bind].
    replace (feq a (fint 1)) with true; [cbn [bind]; eauto|]. symmetry. apply feq_iff; [exact Fa|reflexivity|]. rewrite one_B2R. exact Ea.
  - destruct (part_total4 fexp a (Ga Ea)) as (v & ->). cbn [bind]. eauto.
Qed.

Lemma entry4 fexp fpow J j l c v : accurate_exp fexp -> powers_of_four fpow J -> J <= 25 -> 0 <= j <= J + 1 -> 0 <= l <= 2 ^ 53 ->
  fb 4800 c -> (/ 16384 <= B2R c)%R -> k_entry_fp fexp fpow j l (fint 4) 300 c = Ok v -> fb (4800 * 16384) v.
Proof.
  intros HE H HJ Hj Hl Hc Lc. destruct (pow4_pred fpow J j l H Hj HJ Hl) as [P1 P2]. unfold k_entry_fp.
  assert (B01 : forall z, 0 <= z <= 1 -> fb (4800 * 16384) (fint z)).
  { intros z Hz. split; [apply fint_fin; lia|]. rewrite fint_B2R by lia. split; [apply (IZR_le 0)|apply IZR_le]; lia. }
  destruct (flt (fint l) _) eqn:E1.
  { intros Ev. apply Ok_inj in Ev as <-. apply B01. lia. }
  destruct (flt (fpow _ j) _) eqn:E2.
  { intros Ev. apply Ok_inj in Ev as <-. apply B01. lia. }
  assert (Q1 : 4 ^ j <= 4 * l) by (apply Z.nlt_ge; intros G; apply P1 in G; congruence).
  assert (Q2 : l <= 4 ^ j) by (apply Z.nlt_ge; intros G; apply P2 in G; congruence).
  destruct H as [_ HP]. rewrite HP by lia. destruct (frac4 j l ltac:(lia) Q1 Q2) as (-> & Fa & Ba & Ga). set (a := fdiv _ _) in *. cbn [bind].
  destruct (Req_dec (B2R a) 1) as [Ea|Ea].
  - pose proof (one_of a Fa Ea) as EA. rewrite EA. unfold part_scaling_fn_fp. rewrite (pydiv_ok _ (fint 300)) by exact f300. cbn [bind].
    replace (feq (fint 1) (fint 1)) with true by (vm_compute; reflexivity). cbn [bind]. intros Ev. apply Ok_inj in Ev as <-.
    rewrite fdiv0; [apply B01; lia|]. apply flt_true; [reflexivity|apply Hc|]. rewrite (fint_B2R 0) by lia. lra.
  - destruct (part_fin4 fexp a HE (Ga Ea)) as (w & -> & Bw). cbn [bind]. intros Ev. apply Ok_inj in Ev as <-.
    apply fb_fdiv; try lia; [exact Bw|exact Lc].
Qed.

(*% ** C91: at lam = 4 nothing ever overflows, whatever the band-limit *)

(*@ C91_generating_function_never_raises *)
Lemma fp4_total : forall fexp fpow J L, 0 <= L <= 2 ^ 53 -> -1 <= J <= 25 -> powers_of_four fpow J ->
  exists k, k_lam_fp fexp fpow J L (fint 4) 300 = Ok k /\ rows k = J + 2 /\ cols k = L.
Proof.
  intros fexp fpow J L HL HJ HP.
  destruct (part_total4 fexp c4 c4_good) as (c & Ep).
  unfold k_lam_fp. rewrite il_is_fourth. cbn [bind]. rewrite Ep. cbn [bind]. rewrite zeros2_ok by lia. cbn [bind].
  set (kf := fun j l => val (k_entry_fp fexp fpow j l (fint 4) 300 c)).
  rewrite (for_fill2 _ _ _ _ _ (fun _ _ => true) kf); [|lia|lia|lia|].
  - eexists. split; [reflexivity|]. split; reflexivity.
  - intros i g Hi. rewrite (for_fill2_row _ _ _ i _ _ 0 (kf i)); [|lia|lia|lia|lia|].
    + f_equal. apply mk2_ext. intros p q Hp Hq. rewrite Z.sub_0_r. zb.
    + intros l g' Hl. unfold kf. destruct (entry_total4 fexp fpow J i l c HP ltac:(lia) ltac:(lia) ltac:(lia)) as (v & ->). reflexivity.
Qed.

Lemma kfb4 fexp fpow J L k j l : L <= 2 ^ 53 -> J <= 25 -> accurate_exp fexp -> powers_of_four fpow J ->
  k_lam_fp fexp fpow J L (fint 4) 300 = Ok k -> 0 <= j <= J + 1 -> 0 <= l < L -> fb (4800 * 16384) (get2 k j l).
Proof.
  intros HL HJ HE HP Ek Hj Hl. destruct (k_lam_fp_inv _ _ _ _ _ _ _ Ek) as (il & c & Ei & Ec & _ & _ & _ & _ & HK).
  rewrite il_is_fourth in Ei. apply Ok_inj in Ei as <-. destruct (norm4 fexp HE) as (c' & Ec' & Bc & Lc). rewrite Ec in Ec'. apply Ok_inj in Ec' as <-.
  apply (entry4 fexp fpow J j l c); auto; try lia. apply HK; lia.
Qed.

(*% every entry is finite and not negative *)
(*@ C91_entries *)
Lemma fp4_entries : forall fexp fpow J L k j l, L <= 2 ^ 53 -> J <= 25 -> accurate_exp fexp -> powers_of_four fpow J ->
  k_lam_fp fexp fpow J L (fint 4) 300 = Ok k -> 0 <= j <= J + 1 -> 0 <= l < L ->
  is_finite (get2 k j l) = true /\ (0 <= B2R (get2 k j l))%R.
Proof.
  intros fexp fpow J L k j l HL HJ HE HP Ek Hj Hl. destruct (kfb4 fexp fpow J L k j l HL HJ HE HP Ek Hj Hl) as [A B]. split; [exact A|lra].
Qed.

(*% the filter constructions return *)
(*@ C91_filters_never_raise *)
Lemma fp4_filters_total : forall fexp fpow J L J_min, 0 <= L <= 2 ^ 53 -> 0 <= J_min < J -> J <= 25 -> powers_of_four fpow J ->
  (exists psi phi, filters_axisym_fp fexp fpow J L J_min (fint 4) = Ok (psi, phi)) /\
  (exists psi phi, filters_axisym_vectorised_fp fexp fpow J L J_min (fint 4) = Ok (psi, phi)) /\
  (exists psi phi, filters_axisym_jax_fp fexp fpow J L J_min (fint 4) = Ok (psi, phi)).
Proof.
  intros fexp fpow J L J_min HL HJ HJ25 HP. destruct (fp4_total fexp fpow J L HL ltac:(lia) HP) as (k & Ek & Rk & Ck).
  assert (G : (J <=? J_min) || (J_min <? 0) = false) by (apply orb_false_iff; split; [apply Z.leb_gt|apply Z.ltb_ge]; lia).
  assert (V : exists psi phi, filters_axisym_vectorised_fp fexp fpow J L J_min (fint 4) = Ok (psi, phi)).
  { unfold filters_axisym_vectorised_fp. rewrite G, Ek. cbn [bind]. unfold row2. rewrite idx_ok by lia. cbn [bind]. eauto. }
  split; [|split; [exact V|destruct V as (psi & phi & E); exists psi, phi; rewrite axi_jax; exact E]].
  unfold filters_axisym_fp. rewrite G, Ek. cbn [bind]. rewrite zeros2_ok, zeros1_ok by lia. cbn [bind].
  rewrite (for_fill1 L _ 0 L (fun l => fsqrt (get2 k J_min l))); [|lia|lia|lia|].
  2:{ intros l g Hl. rewrite rd2_ok by lia. reflexivity. }
  cbn [bind].
  set (P := fun (_ : Z) (st : arr2 f64 * f64 * option f64) => rows (fst (fst st)) = J + 1 /\ cols (fst (fst st)) = L).
  assert (K0 : 0 < L -> forall j, 0 <= j <= J + 1 -> get2 k j 0 = fint 1).
  { intros HL0 j Hj. destruct (k_lam_fp_inv _ _ _ _ _ _ _ Ek) as (il & c & _ & _ & _ & _ & _ & _ & HK).
    specialize (HK j 0 ltac:(lia) ltac:(lia)). destruct (pow4_pred fpow J j 0 HP Hj HJ25 ltac:(lia)) as [P1 _].
    unfold k_entry_fp in HK. rewrite (proj2 P1) in HK; [now apply Ok_inj in HK|]. pose proof (Z.pow_pos_nonneg 4 j ltac:(lia) ltac:(lia)). lia. }
  match goal with |- exists psi phi, bind (for_ (zrange J_min (J + 1)) ?s ?bd) _ = _ =>
    destruct (for_prog P J_min (J + 1) s bd) as ([[psi p] t] & -> & _) end; [lia|split; reflexivity| |cbn [bind]; eauto].
  intros j [[a p] t] Hj (A & B). cbn [fst] in A, B.
  set (Q := fun (m : Z) (st : arr2 f64 * f64 * option f64) => rows (fst (fst st)) = J + 1 /\ cols (fst (fst st)) = L /\ (0 < m -> snd st <> None)).
  match goal with |- exists b, for_ _ ?s ?bd = _ /\ _ =>
    destruct (for_prog Q 0 L s bd) as (b & Eb & HQ) end; [lia|split; [exact A|split; [exact B|lia]]| |exists b; split; [exact Eb|]; split; apply HQ].
  intros m [[a' p'] t'] Hm (A' & B' & D'). cbn [fst snd] in A', B', D'.
  rewrite !rd2_ok by lia. cbn [bind]. rewrite !wr2_ok by lia.
  destruct (flt (fsub _ _) (fint 0)) eqn:E; cbn [bind].
  + destruct t' as [t'|].
    * eexists. split; [reflexivity|]. unfold Q. cbn [fst snd rows cols mk2]. repeat split; auto. discriminate.
    * exfalso. destruct (Z.eq_dec m 0) as [->|]; [|apply D'; [lia|reflexivity]].
      rewrite !K0 in E by lia. rewrite fsub11 in E. vm_compute in E. discriminate.
  + eexists. split; [reflexivity|]. unfold Q. cbn [fst snd rows cols mk2]. repeat split; auto. discriminate.
Qed.

(*% every value of the vectorised and JAX filters is finite *)
(*@ C91_filters_finite *)
Lemma fp4_finite : forall fexp fpow J L J_min psi phi, L <= 2 ^ 53 -> J <= 25 -> accurate_exp fexp -> powers_of_four fpow J ->
  filters_axisym_vectorised_fp fexp fpow J L J_min (fint 4) = Ok (psi, phi) \/
  filters_axisym_jax_fp fexp fpow J L J_min (fint 4) = Ok (psi, phi) ->
  forall j l, 0 <= j <= J -> 0 <= l < L -> is_finite (get2 psi j l) = true /\ is_finite (get1 phi l) = true.
Proof.
  intros fexp fpow J L J_min psi phi HL HJ HE HP HF j l Hj Hl. rewrite axi_jax in HF.
  assert (HF' : filters_axisym_vectorised_fp fexp fpow J L J_min (fint 4) = Ok (psi, phi)) by tauto.
  destruct (vec_fp_inv _ _ _ _ _ _ _ _ HF') as (R & k & Ek & _ & _ & _ & A & B).
  assert (K : forall i, 0 <= i <= J + 1 -> fb (4800 * 16384) (get2 k i l)).
  { intros i Hi. apply (kfb4 fexp fpow J L k i l); auto; lia. }
  split.
  - rewrite A by lia. destruct (K (j + 1) ltac:(lia)) as [F1 B1]. destruct (K j ltac:(lia)) as [F0 B0].
    change (IZR (4800 * 16384)) with 78643200%R in *.
    destruct (fsub_ok _ _ F1 F0) as [Fd _]. { apply big. change (2 ^ 53) with 9007199254740992. apply Rabs_le. lra. }
    set (d := fsub _ _) in *. unfold fclip. destruct (flt d (fint 0)) eqn:E; [reflexivity|].
    apply fsqrt_ok; [exact Fd|]. apply flt_false_inv in E; [|exact Fd|reflexivity]. rewrite (fint_B2R 0) in E by lia. exact E.
  - rewrite B by lia. destruct (K J_min ltac:(lia)) as [F0 B0]. apply fsqrt_ok; [exact F0|lra].
Qed.

(*% and so is every value of the looped filters *)
(*@ C91_looped_filters_finite *)
Lemma fp4_loop_finite : forall fexp fpow J L J_min psi phi, L <= 2 ^ 53 -> J <= 25 -> accurate_exp fexp -> powers_of_four fpow J ->
  filters_axisym_fp fexp fpow J L J_min (fint 4) = Ok (psi, phi) ->
  forall j l, 0 <= j <= J -> 0 <= l < L -> is_finite (get2 psi j l) = true /\ is_finite (get1 phi l) = true.
Proof.
  intros fexp fpow J L J_min psi phi HL HJ HE HP HF j l Hj Hl.
  destruct (loop_fp_inv _ _ _ _ _ _ _ _ HF) as (R & k & Ek & _ & _ & _ & _ & _ & B).
  assert (K : forall i m, 0 <= i <= J + 1 -> 0 <= m < L -> fb (4800 * 16384) (get2 k i m)).
  { intros i m Hi Hm. apply (kfb4 fexp fpow J L k i m); auto; lia. }
  destruct (k_lam_fp_inv _ _ _ _ _ _ _ Ek) as (il & c & _ & _ & _ & _ & Rk & Ck & _).
  split; [|rewrite B by lia; destruct (K J_min l ltac:(lia) Hl) as [F0 B0]; apply fsqrt_ok; [exact F0|lra]].
  assert (G : (J <=? J_min) || (J_min <? 0) = false) by (apply orb_false_iff; split; [apply Z.leb_gt|apply Z.ltb_ge]; lia).
  unfold filters_axisym_fp in HF. rewrite G, Ek in HF. cbn [bind] in HF. rewrite zeros2_ok, zeros1_ok in HF by lia. cbn [bind] in HF.
  apply bind_inv in HF as (phi' & _ & HF). apply bind_inv in HF as ([[psi' p] t] & HF & E). apply Ok_inj in E. apply (f_equal fst) in E. cbn [fst] in E. subst psi'.
  set (P := fun (_ : Z) (st : arr2 f64 * f64 * option f64) => rows (fst (fst st)) = J + 1 /\ cols (fst (fst st)) = L /\
    is_finite (snd (fst st)) = true /\ (forall x, snd st = Some x -> is_finite x = true) /\
    forall i m, 0 <= i <= J -> 0 <= m < L -> is_finite (get2 (fst (fst st)) i m) = true).
  apply (for_inv P) in HF; [now apply HF|lia| |].
  { unfold P. cbn [fst snd rows cols mk2].
    split; [reflexivity|]. split; [reflexivity|]. split; [reflexivity|]. split; [intros x X; inversion X|].
    intros i m Hi Hm. rewrite get2_mk by lia. reflexivity. }
  intros i st st' Hi HS HF'. apply (for_inv P) in HF'; [exact HF'|lia|exact HS|]. clear st st' HS HF'.
  intros m [[a q] u] st' Hm (A1 & A2 & A3 & A4 & A5) HF'. cbn [fst snd] in A1, A2, A3, A4, A5.
  rewrite !rd2_ok in HF' by lia. cbn [bind] in HF'. rewrite !wr2_ok in HF' by lia.
  destruct (K (i + 1) m ltac:(lia) Hm) as [F1 B1]. destruct (K i m ltac:(lia) Hm) as [F0 B0]. change (IZR (4800 * 16384)) with 78643200%R in *.
  destruct (fsub_ok _ _ F1 F0) as [Fd _]. { apply big. change (2 ^ 53) with 9007199254740992. apply Rabs_le. lra. }
  set (d := fsub _ _) in *.
  destruct (flt d (fint 0)) eqn:E; cbn [bind] in HF'.
  - destruct u as [u|]; [|discriminate]. apply Ok_inj in HF' as <-. unfold P. cbn [fst snd rows cols mk2].
    split; [exact A1|]. split; [exact A2|]. split; [now apply A4|]. split; [exact A4|].
    intros i' m' Hi' Hm'. rewrite get2_mk by lia. destruct (_ && _); auto.
  - assert (FS : is_finite (fsqrt d) = true).
    { apply fsqrt_ok; [exact Fd|]. apply flt_false_inv in E; [|exact Fd|reflexivity]. rewrite (fint_B2R 0) in E by lia. exact E. }
    apply Ok_inj in HF' as <-. unfold P. cbn [fst snd rows cols mk2].
    split; [exact A1|]. split; [exact A2|]. split; [exact FS|]. split.
    + intros x [= <-]. exact FS.
    + intros i' m' Hi' Hm'. rewrite get2_mk by lia. destruct (_ && _); auto.
Qed.

(** powers meeting the hypotheses *)
Definition pow4 (_ : f64) (j : Z) : f64 := if j <? 0 then c4 else fint (4 ^ j).
Lemma pow4_ok J : powers_of_four pow4 J.
Proof.
  split.
  - change (pow4 (fint 4) (-1)) with c4. destruct c4_val as [F E]. split; [exact F|]. rewrite E. lra.
  - intros j Hj. unfold pow4. destruct (Z.ltb_spec j 0); [lia|reflexivity].
Qed.

(*% L = 1000 (J = 5): the library returns filters, all of whose values are finite *)
(*@E C91_example *)
Lemma ex_c91 : exists fexp fpow psi phi, accurate_exp fexp /\ powers_of_four fpow 5 /\
  filters_axisym_vectorised_fp fexp fpow 5 1000 0 (fint 4) = Ok (psi, phi) /\ is_finite (get2 psi 4 794) = true /\ is_finite (get1 phi 1) = true.
Proof.
  pose proof grid_accurate as H1. pose proof (pow4_ok 5) as H3.
  destruct (fp4_filters_total grid_exp pow4 5 1000 0 ltac:(lia) ltac:(lia) ltac:(lia) H3) as (_ & (psi & phi & E) & _).
  exists grid_exp, pow4, psi, phi. split; [exact H1|]. split; [exact H3|]. split; [exact E|].
  pose proof (fp4_finite grid_exp pow4 5 1000 0 psi phi ltac:(lia) ltac:(lia) H1 H3 (or_introl E)) as X.
  split; [apply (X 4 794); lia|apply (X 4 1); lia].
Qed.
