(** * A toy harmonic transform that meets every condition of SpecTransforms.v

    It shows that the conditions the theorems assume of the external transforms
    are consistent with each other, for the four equiangular samplings, every
    band-limit, spin and reality flag.  Pixels store the harmonic coefficients
    themselves (scaled so that one pixel is the constant field); with the
    reality flag a pixel of positive order stores the real part and the pixel
    of the opposite order the imaginary part. *)

From Coq Require Import ZArith Reals List Bool Lia Lra FunctionalExtensionality.
From Coquelicot Require Import Rcomplements Complex.
From Verif Require Import Py PyFacts ModelSamples SamplesFacts ModelFilters ModelTransforms Spec SpecTransforms
  FiltersFacts SamplesProps FiltersProps TransformsFacts.
Import ListNotations.
Open Scope Z_scope.

Definition c0 : R := sqrt (1 / (4 * PI)).
Definition ci : C := (0, 1)%R.

Definition px (L : Z) (reality : bool) (a : arr2 C) (l q : Z) : C :=
  let m := q - (L - 1) in
  if reality then
    if m =? 0 then get2 a l q
    else if 0 <? m then RtoC (fst (get2 a l q)) else RtoC (snd (get2 a l (L - 1 - m)))
  else get2 a l q.
Definition demo_inv (a : arr2 C) (L spin : Z) (s : sampling) (nside : option Z) (reality : bool) : res nd :=
  sh <- s2_f_shape L s nside ;;
  Ok (Nd sh (fun ix => match ix with
                       | [l; q] => if inb L l && inb (2 * L - 1) q
                                   then Cmult (px L reality a l q) (RtoC c0) else RtoC 0
                       | _ => RtoC 0
                       end)).
Definition unpx (L : Z) (reality : bool) (p : Z -> Z -> C) (l q : Z) : C :=
  let m := q - (L - 1) in
  if reality then
    if m =? 0 then p l q
    else if 0 <? m then Cplus (p l q) (Cmult ci (p l (L - 1 - m)))
    else Cmult (RtoC (sign_of m)) (Cconj (Cplus (p l (L - 1 - m)) (Cmult ci (p l q))))
  else p l q.
Definition demo_fwd (f : nd) (L spin : Z) (s : sampling) (nside : option Z) (reality : bool) : res (arr2 C) :=
  Ok (mk2 L (2 * L - 1) (fun l q =>
    if (Z.abs spin <=? l) && (Z.abs (q - (L - 1)) <=? l)
    then unpx L reality (fun l q => Cmult (ndat f [l; q]) (RtoC (/ c0))) l q else RtoC 0)).
Definition demo_winv (a : arr3 C) (L N L0 : Z) (s : sampling) (reality : bool) (nside : option Z) : res nd :=
  sh <- so3_f_shape L N s nside ;;
  Ok (Nd sh (fun ix => match ix with
                       | [n; l; q] => if inb (2 * N - 1) n && inb L l && inb (2 * L - 1) q
                                      then get3 a n l q else RtoC 0
                       | _ => RtoC 0
                       end)).
Definition demo_wfwd (f : nd) (L N L0 : Z) (s : sampling) (reality : bool) (nside : option Z) : res (arr3 C) :=
  Ok (mk3 (2 * N - 1) L (2 * L - 1) (fun n l q =>
    if (L0 <=? l) && (Z.abs (q - (L - 1)) <=? l) && (Z.abs (n - (N - 1)) <=? l)
    then ndat f [n; l; q] else RtoC 0)).

Definition smp (ix : Z) : sampling := if ix =? 0 then MW else if ix =? 1 then MWSS else if ix =? 2 then DH else GL.
Definition demo : s2fft :=
  S2fft demo_fwd demo_inv demo_wfwd demo_winv
    (fun f L spin nside s reality => demo_fwd f L spin s nside reality)
    (fun a L spin nside s reality => demo_inv a L spin s nside reality)
    (fun f L N nside s reality k L0 => demo_wfwd f L N L0 s reality nside)
    (fun a L N nside s reality k L0 => demo_winv a L N L0 s reality nside)
    (fun f k L s reality spin nside => demo_fwd f L spin s nside reality)
    (fun a k L s reality spin nside => demo_inv a L spin s nside reality)
    (fun f k L N s reality nside => demo_wfwd f L N 0 s reality nside)
    (fun a k L N s reality nside => demo_winv a L N 0 s reality nside)
    (fun f k L s reality spin nside => demo_fwd f L spin s nside reality)
    (fun a k L s reality spin nside => demo_inv a L spin s nside reality)
    (fun f k L N s reality nside => demo_wfwd f L N 0 s reality nside)
    (fun a k L N s reality nside => demo_winv a L N 0 s reality nside)
    (fun f L spin reality ix => demo_fwd f L spin (smp ix) None reality)
    (fun a L spin reality ix => demo_inv a L spin (smp ix) None reality)
    (fun f L N L0 s reality => demo_wfwd f L N L0 s reality None)
    (fun a L N L0 s reality => demo_winv a L N L0 s reality None).

(** the four equiangular samplings *)
Definition equiangular (s : sampling) : Prop := s = MW \/ s = MWSS \/ s = DH \/ s = GL.

Lemma c0_ne : (c0 <> 0)%R.
Proof.
  unfold c0. assert (P := PI_RGT_0). apply Rgt_not_eq, sqrt_lt_R0. apply Rdiv_lt_0_compat; lra.
Qed.
Lemma shape_eq L s : equiangular s -> exists sh, s2_f_shape L s None = Ok sh.
Proof. intros [->|[->|[->| ->]]]; cbn; eauto. Qed.
Lemma wshape_eq L N s : equiangular s -> exists sh, so3_f_shape L N s None = Ok sh.
Proof. intros [->|[->|[->| ->]]]; cbn; eauto. Qed.

Lemma px_unpx L (reality : bool) (a : arr2 C) l q : (reality = true -> real_harmonic L a) ->
  unpx L reality (px L reality a) l q = get2 a l q.
Proof.
  intros Hr. unfold unpx, px. destruct reality; [|reflexivity]. specialize (Hr eq_refl).
  set (m := q - (L - 1)). replace (L - 1 - m - (L - 1)) with (- m) by lia.
  replace (L - 1 - - m) with (L - 1 + m) by lia.
  assert (Hq : L - 1 + m = q) by (unfold m; lia).
  destruct (Z.eqb_spec m 0) as [H0|H0]; [reflexivity|].
  replace (- m =? 0) with false by (symmetry; apply Z.eqb_neq; lia).
  destruct (Z.ltb_spec 0 m).
  - replace (0 <? - m) with false by (symmetry; apply Z.ltb_ge; lia). rewrite Hq.
    destruct (get2 a l q) as [x y]. unfold ci, Cplus, Cmult, RtoC. cbn. f_equal; ring.
  - replace (0 <? - m) with true by (symmetry; apply Z.ltb_lt; lia).
    pose proof (Hr l (- m)) as E. replace (L - 1 - - m) with q in E by lia.
    replace (L - 1 + - m) with (L - 1 - m) in E by lia. rewrite E. replace (sign_of (- m)) with (sign_of m).
    + f_equal. f_equal. destruct (get2 a l (L - 1 - m)) as [x y]. unfold ci, Cplus, Cmult, RtoC. cbn. f_equal; ring.
    + rewrite !sign_msgn. unfold msgn. now rewrite Z.even_opp.
Qed.
Lemma unpx_ext L reality p p' l q : p l q = p' l q -> p l (2 * (L - 1) - q) = p' l (2 * (L - 1) - q) ->
  unpx L reality p l q = unpx L reality p' l q.
Proof.
  intros H1 H2. unfold unpx. replace (L - 1 - (q - (L - 1))) with (2 * (L - 1) - q) by lia. now rewrite H1, H2.
Qed.
Lemma inv_fwd L spin s reality a : 1 <= L -> equiangular s -> is_harmonic L spin reality a ->
  exists f, demo_inv a L spin s None reality = Ok f /\ s2_f_shape L s None = Ok (nshape f) /\
            forall s', demo_fwd f L spin s' None reality = Ok a.
Proof.
  intros HL Hs ((H1 & H2 & H3) & Hr). destruct (shape_eq L s Hs) as [sh Esh]. unfold demo_inv. rewrite Esh. cbn [bind].
  eexists. split; [reflexivity|]. cbn [nshape]. split; [reflexivity|]. intros s'. unfold demo_fwd. f_equal.
  destruct a as [r c g]. cbn [rows cols] in *. subst. unfold mk2. f_equal.
  apply functional_extensionality. intros l. apply functional_extensionality. intros q.
  assert (Hz : (inb L l && inb (2 * L - 1) q) && ((Z.abs spin <=? l) && (Z.abs (q - (L - 1)) <=? l)) = false -> g l q = RtoC 0).
  { intros Hb. destruct (Ceq_dec (g l q) (RtoC 0)) as [E0|E0]; [exact E0|exfalso].
    specialize (H3 l (q - (L - 1))). cbn [get2] in H3. replace (L - 1 + (q - (L - 1))) with q in H3 by lia.
    specialize (H3 E0). revert Hb. apply not_false_iff_true. rewrite !andb_true_iff, !inb_true, !Z.leb_le. lia. }
  destruct (inb L l && inb (2 * L - 1) q) eqn:Eb; [|symmetry; now apply Hz].
  destruct ((Z.abs spin <=? l) && (Z.abs (q - (L - 1)) <=? l)) eqn:Ec; [|symmetry; now apply Hz].
  rewrite andb_true_iff, !inb_true in Eb.
  change (g l q) with (get2 (Arr2 L (2 * L - 1) g) l q).
  rewrite <- (px_unpx L reality (Arr2 L (2 * L - 1) g) l q Hr).
  apply unpx_ext; cbn [ndat].
  - replace (inb L l && inb (2 * L - 1) q) with true by (symmetry; rewrite andb_true_iff, !inb_true; lia).
    rewrite <- Cmult_assoc, <- RtoC_mult, Rinv_r, Cmult_1_r; [reflexivity|apply c0_ne].
  - replace (inb L l && inb (2 * L - 1) (2 * (L - 1) - q)) with true by (symmetry; rewrite andb_true_iff, !inb_true; lia).
    rewrite <- Cmult_assoc, <- RtoC_mult, Rinv_r, Cmult_1_r; [reflexivity|apply c0_ne].
Qed.
Lemma winv_wfwd L N L0 s reality a : 1 <= L -> 1 <= N -> 0 <= L0 -> equiangular s -> is_wigner L N L0 reality a ->
  exists f, demo_winv a L N L0 s reality None = Ok f /\ so3_f_shape L N s None = Ok (nshape f) /\
            forall s', demo_wfwd f L N L0 s' reality None = Ok a.
Proof.
  intros HL HN HL0 Hs ((H0 & H1 & H2 & H3) & Hr). destruct (wshape_eq L N s Hs) as [sh Esh]. unfold demo_winv. rewrite Esh. cbn [bind].
  eexists. split; [reflexivity|]. cbn [nshape]. split; [reflexivity|]. intros s'. unfold demo_wfwd. f_equal.
  destruct a as [d r c g]. cbn [dim0 dim1 dim2] in *. subst. unfold mk3. f_equal.
  apply functional_extensionality. intros n. apply functional_extensionality. intros l. apply functional_extensionality. intros q.
  cbn [ndat get3].
  assert (Hz : (inb (2 * N - 1) n && inb L l && inb (2 * L - 1) q)
     && ((L0 <=? l) && (Z.abs (q - (L - 1)) <=? l) && (Z.abs (n - (N - 1)) <=? l)) = false -> g n l q = RtoC 0).
  { intros Hb. destruct (Ceq_dec (g n l q) (RtoC 0)) as [E0|E0]; [exact E0|exfalso].
    specialize (H3 (n - (N - 1)) l (q - (L - 1))). cbn [get3] in H3.
    replace (L - 1 + (q - (L - 1))) with q in H3 by lia. replace (N - 1 + (n - (N - 1))) with n in H3 by lia.
    specialize (H3 E0). revert Hb. apply not_false_iff_true. rewrite !andb_true_iff, !inb_true, !Z.leb_le. lia. }
  match goal with |- (if ?b1 then if ?b2 then _ else _ else _) = _ =>
    destruct b1, b2; cbn [andb] in Hz; try reflexivity; symmetry; now apply Hz end.
Qed.
Lemma demo_inv_fn a L spin s nside reality f : demo_inv a L spin s nside reality = Ok f ->
  s2_f_shape L s nside = Ok (nshape f).
Proof.
  unfold demo_inv. intros H. destruct (s2_f_shape L s nside); cbn [bind] in H; [|discriminate].
  apply Ok_inj in H. now subst.
Qed.

Lemma wigner_down L N L0 a : wigner L N L0 a -> 0 <= L0 -> wigner L N 0 a.
Proof. intros (H0 & H1 & H2 & H3) H. repeat split; auto; intros; edestruct H3; eauto; lia. Qed.

(** ** The conditions *)

Lemma equi_ix s ix : ssht_index s ix -> equiangular s /\ smp ix = s.
Proof. unfold equiangular. intros [[-> ->]|[[-> ->]|[[-> ->]|[-> ->]]]]; cbn; tauto. Qed.

Lemma demo_exact_b spin s reality : equiangular s -> exact_b demo spin s None reality.
Proof.
  intros Hs. split.
  - intros L HL a Ha. destruct (inv_fwd L spin s reality a HL Hs Ha) as (f & E1 & E2 & E3). exists f. cbn. auto.
  - intros L N L0 HL HN HL0 a Ha. destruct (winv_wfwd L N L0 s reality a HL ltac:(lia) ltac:(lia) Hs Ha) as (f & E1 & E2 & E3). exists f. cbn. auto.
Qed.
Lemma demo_exact_j spin s reality : equiangular s -> exact_j demo spin s None reality.
Proof.
  intros Hs. split.
  - intros L HL a Ha. destruct (inv_fwd L spin s reality a HL Hs Ha) as (f & E1 & E2 & E3). exists f. cbn. auto.
  - intros L N L0 HL HN HL0 a Ha. destruct (winv_wfwd L N L0 s reality a HL ltac:(lia) ltac:(lia) Hs Ha) as (f & E1 & E2 & E3). exists f. cbn. auto.
Qed.
Lemma demo_exact_p s reality : equiangular s -> exact_p demo s None reality.
Proof.
  intros Hs. split.
  - intros L HL a Ha. destruct (inv_fwd L 0 s reality a HL Hs Ha) as (f & E1 & E2 & E3). exists f. cbn. auto.
  - intros L N HL HN a Ha. destruct (winv_wfwd L N 0 s reality a HL ltac:(lia) ltac:(lia) Hs Ha) as (f & E1 & E2 & E3). exists f. cbn. auto.
Qed.
Lemma demo_exact_t s reality : equiangular s -> exact_t demo s None reality.
Proof.
  intros Hs. split.
  - intros L HL a Ha. destruct (inv_fwd L 0 s reality a HL Hs Ha) as (f & E1 & E2 & E3). exists f. cbn. auto.
  - intros L N HL HN a Ha. destruct (winv_wfwd L N 0 s reality a HL ltac:(lia) ltac:(lia) Hs Ha) as (f & E1 & E2 & E3). exists f. cbn. auto.
Qed.
Lemma demo_exact_c spin s ix reality : ssht_index s ix -> exact_c demo spin s ix reality.
Proof.
  intros Hix. destruct (equi_ix s ix Hix) as [Hs Ei]. split.
  - intros L HL a Ha. destruct (inv_fwd L spin s reality a HL Hs Ha) as (f & E1 & E2 & E3). exists f. cbn. rewrite Ei. auto.
  - intros L N L0 HL HN HL0 a Ha. destruct (winv_wfwd L N L0 s reality a HL ltac:(lia) ltac:(lia) Hs Ha) as (f & E1 & E2 & E3). exists f. cbn. auto.
Qed.
Lemma demo_fwd_coefs spin s nside reality : fwd_coefs_b demo spin s nside reality.
Proof.
  split.
  - intros f L flm H. cbn in H. unfold demo_fwd in H. apply Ok_inj in H. subst flm. split; [reflexivity|]. split; [reflexivity|].
    intros l m H. unfold mk2 in H. cbn [get2] in H.
    destruct (inb L l && inb (2 * L - 1) (L - 1 + m)) eqn:E1; [|now contradict H].
    destruct (_ && _) eqn:E2 in H; [|now contradict H].
    rewrite !andb_true_iff, ?inb_true, ?Z.leb_le in *. lia.
  - intros f L N L0 a H. cbn in H. unfold demo_wfwd in H. apply Ok_inj in H. subst a. do 3 (split; [reflexivity|]).
    intros n l m H. unfold mk3 in H. cbn [get3] in H.
    destruct (inb (2 * N - 1) (N - 1 + n) && inb L l && inb (2 * L - 1) (L - 1 + m)) eqn:E1; [|now contradict H].
    destruct (_ && _ && _) eqn:E2 in H; [|now contradict H].
    rewrite !andb_true_iff, ?inb_true, ?Z.leb_le in *. lia.
Qed.
Lemma demo_fwd_shapes spin s nside reality : fwd_shapes_b demo spin s nside reality.
Proof.
  split.
  - intros f L flm H. cbn in H. unfold demo_fwd in H. apply Ok_inj in H. now subst flm.
  - intros f L N L0 a H. cbn in H. unfold demo_wfwd in H. apply Ok_inj in H. now subst a.
Qed.
Lemma demo_inv_shapes spin s nside reality : inv_shapes_b demo spin s nside reality.
Proof.
  split.
  - intros a L f H. cbn in H. unfold demo_inv in H. destruct (s2_f_shape L s nside); cbn [bind] in H; [|discriminate].
    apply Ok_inj in H. now subst.
  - intros a L N L0 f H. cbn in H. unfold demo_winv in H. destruct (so3_f_shape L N s nside); cbn [bind] in H; [|discriminate].
    apply Ok_inj in H. now subst.
Qed.
Lemma same_wfwd f L N L0 s s' reality nside nside' :
  same_from L0 (demo_wfwd f L N 0 s reality nside) (demo_wfwd f L N L0 s' reality nside').
Proof.
  unfold demo_wfwd, same_from. split; [reflexivity|]. intros n l m Hl. unfold mk3. cbn [get3].
  destruct (inb (2 * N - 1) n && inb L l && inb (2 * L - 1) m) eqn:E; [|reflexivity].
  rewrite !andb_true_iff, !inb_true in E.
  replace (0 <=? l) with true by (symmetry; apply Z.leb_le; lia). replace (L0 <=? l) with true by (symmetry; apply Z.leb_le; lia).
  reflexivity.
Qed.
Lemma same_self L0 x : same_from L0 x x.
Proof. destruct x; cbn; auto. Qed.
Lemma demo_agrees_j : agrees_j demo.
Proof.
  split; [reflexivity|]. split; [reflexivity|]. split; [|reflexivity]. intros. apply same_self.
Qed.
Lemma demo_agrees_p : agrees_p demo.
Proof. split; [reflexivity|]. split; [reflexivity|]. split; [|reflexivity]. intros. apply same_wfwd. Qed.
Lemma demo_agrees_t : agrees_t demo.
Proof. split; [reflexivity|]. split; [reflexivity|]. split; [|reflexivity]. intros. apply same_wfwd. Qed.
Lemma demo_agrees_c : agrees_c demo.
Proof.
  split; [|split; [|split]].
  - intros f L spin s ix reality Hix _. cbn. now rewrite (proj2 (equi_ix s ix Hix)).
  - intros a L spin s ix reality Hix _. cbn. now rewrite (proj2 (equi_ix s ix Hix)).
  - intros. apply same_self.
  - reflexivity.
Qed.
Lemma demo_reads s nside : reads_nonnegative demo s nside.
Proof.
  intros L a b Ha1 Ha2 Hb1 Hb2 H. cbn. unfold demo_inv. apply bind_ext. intros sh _. do 2 f_equal.
  apply functional_extensionality. intros ix. destruct ix as [|l [|q [|]]]; auto.
  destruct (inb L l && inb (2 * L - 1) q) eqn:E; [|reflexivity]. rewrite andb_true_iff, !inb_true in E. f_equal.
  unfold px. assert (Hq : q = L - 1 + (q - (L - 1))) by lia.
  destruct (Z.eqb_spec (q - (L - 1)) 0).
  - rewrite Hq. apply H; lia.
  - destruct (Z.ltb_spec 0 (q - (L - 1))).
    + rewrite Hq, H by lia. reflexivity.
    + replace (L - 1 - (q - (L - 1))) with (L - 1 + ((L - 1) - q)) by lia. rewrite H by lia. reflexivity.
Qed.
Lemma demo_real ix : real_fields (fun a L => c_inv demo a L 0 true ix).
Proof.
  intros a L f (H1 & H2 & H3) Hr H. cbn in H. unfold demo_inv in H.
  destruct (s2_f_shape _ _ _); cbn [bind] in H; [|discriminate]. apply Ok_inj in H. subst f. unfold nd_real. cbn [nshape ndat].
  f_equal. apply functional_extensionality. intros jx. destruct jx as [|l' [|q [|]]]; auto.
  destruct (_ && _); [|reflexivity]. unfold px.
  destruct (Z.eqb_spec (q - (L - 1)) 0) as [E|E].
  - specialize (Hr l' 0). rewrite Z.sub_0_r, Z.add_0_r in Hr. replace q with (L - 1) by lia.
    assert (sign_of 0 = 1%R) as S by reflexivity. rewrite S in Hr. clear S.
    destruct (get2 a l' (L - 1)) as [x y]. unfold Cconj, Cmult, RtoC in *. cbn in *. apply pair_equal_spec in Hr as [_ Hr].
    assert (y = 0)%R by lra. subst. f_equal; ring.
  - destruct (0 <? _); unfold RtoC, Cmult, Re; cbn; f_equal; ring.
Qed.
Lemma demo_one_inverse spin s reality : s = MW \/ s = GL -> one_pixel_inverse demo spin s None reality.
Proof.
  intros Hs a _. cbn. unfold demo_inv.
  replace (s2_f_shape 1 s None) with (Ok [1; 1]) by (destruct Hs as [-> | ->]; reflexivity).
  cbn [bind]. unfold constant_field. do 2 f_equal. apply functional_extensionality. intros ix. destruct ix as [|i [|j [|]]]; auto.
  change (2 * 1 - 1) with 1.
  replace (inb 1 i && inb 1 j) with ((i =? 0) && (j =? 0))
    by (apply eq_true_iff_eq; rewrite !andb_true_iff, !inb_true, !Z.eqb_eq; lia).
  destruct (Z.eqb_spec i 0), (Z.eqb_spec j 0); cbn [andb]; auto. subst. unfold px. cbn. now destruct reality.
Qed.
Lemma demo_one_fwd spin s nside reality : one_point spin reality (fun y => demo_fwd y 1 spin s nside reality).
Proof.
  intros a Ha. destruct (inv_fwd 1 spin MW reality a ltac:(lia) ltac:(left; reflexivity) Ha) as (f & E1 & _ & E3).
  assert (E : demo_inv a 1 spin MW None reality = Ok (constant_field a))
    by (apply (demo_one_inverse spin MW reality ltac:(auto)); apply Ha).
  rewrite E in E1. apply Ok_inj in E1. subst f. apply (E3 s).
Qed.
Lemma px_lin L (reality : bool) x y a b l q : scalar reality x -> scalar reality y ->
  px L reality (lin2 x y a b) l q = Cplus (Cmult x (px L reality a l q)) (Cmult y (px L reality b l q)).
Proof.
  intros Hx Hy. unfold px, lin2. cbn [get2]. destruct reality; [|reflexivity]. specialize (Hx eq_refl). specialize (Hy eq_refl).
  destruct x as [x x'], y as [y y']. cbn in Hx, Hy. subst.
  destruct (_ =? 0); [reflexivity|]. destruct (0 <? _); unfold Cplus, Cmult, RtoC; cbn; f_equal; ring.
Qed.
Lemma unpx_lin L (reality : bool) x y p p' l q : scalar reality x -> scalar reality y ->
  unpx L reality (fun l q => Cplus (Cmult x (p l q)) (Cmult y (p' l q))) l q
  = Cplus (Cmult x (unpx L reality p l q)) (Cmult y (unpx L reality p' l q)).
Proof.
  intros Hx Hy. unfold unpx. destruct reality; [|reflexivity]. specialize (Hx eq_refl). specialize (Hy eq_refl).
  destruct x as [x x'], y as [y y']. cbn in Hx, Hy. subst.
  destruct (_ =? 0); [reflexivity|].
  destruct (p l q), (p' l q), (p l (L - 1 - (q - (L - 1)))), (p' l (L - 1 - (q - (L - 1)))).
  destruct (0 <? _); unfold Cplus, Cmult, Cconj, RtoC, ci; cbn; f_equal; ring.
Qed.
Lemma C0_lin x y : RtoC 0 = Cplus (Cmult x (RtoC 0)) (Cmult y (RtoC 0)).
Proof. ring. Qed.
Lemma demo_linear spin s nside reality : linear_b demo spin s nside reality.
Proof.
  split; [|split; [|split]].
  - intros L a b f g x y Ha Hb Hfg E1 E2. cbn in *. unfold demo_fwd in *. apply Ok_inj in E1, E2. subst x y. f_equal.
    unfold lin2, mk2. cbn [rows cols get2]. f_equal. apply functional_extensionality. intros l. apply functional_extensionality. intros q.
    destruct (_ && _); [|apply C0_lin]. destruct (_ && _); [|apply C0_lin].
    rewrite <- unpx_lin by assumption. apply unpx_ext; cbn [lin_nd ndat]; ring.
  - intros L a b f g x y Ha Hb Hfg E1 E2. cbn in *. unfold demo_inv in *. destruct (s2_f_shape L s nside) as [sh|]; cbn [bind] in *; [|discriminate].
    apply Ok_inj in E1, E2. subst x y. f_equal. unfold lin_nd. cbn [nshape ndat]. f_equal. apply functional_extensionality.
    intros ix. destruct ix as [|l [|q [|]]]; try apply C0_lin. destruct (_ && _); [|apply C0_lin]. rewrite px_lin by assumption. ring.
  - intros L N L0 a b f g x y Ha Hb Hfg E1 E2. cbn in *. unfold demo_wfwd in *. apply Ok_inj in E1, E2. subst x y. f_equal.
    unfold lin3, mk3. cbn [dim0 dim1 dim2 get3]. f_equal. do 3 (apply functional_extensionality; intros ?).
    destruct (_ && _ && _); [|apply C0_lin]. destruct (_ && _ && _); [|apply C0_lin]. reflexivity.
  - intros L N L0 a b f g x y Ha Hb Hfg E1 E2. cbn in *. unfold demo_winv in *. destruct (so3_f_shape L N s nside) as [sh|]; cbn [bind] in *; [|discriminate].
    apply Ok_inj in E1, E2. subst x y. f_equal. unfold lin_nd. cbn [nshape ndat]. f_equal. apply functional_extensionality.
    intros ix. destruct ix as [|n [|l [|q [|]]]]; try apply C0_lin. destruct (_ && _ && _); [|apply C0_lin]. reflexivity.
Qed.
(** forward transforms with the reality flag return coefficients of a real signal *)
Lemma demo_fwd_real f L s nside flm : 1 <= L -> nd_real f = f -> demo_fwd f L 0 s nside true = Ok flm -> is_harmonic L 0 true flm.
Proof.
  intros HL Hf H. split; [apply (proj1 (demo_fwd_coefs 0 s nside true) f L flm H)|]. intros _.
  unfold demo_fwd in H. apply Ok_inj in H. subst flm. intros l m. unfold mk2. cbn [get2].
  assert (Hs : sign_of (- m) = sign_of m) by (rewrite !sign_msgn; unfold msgn; now rewrite Z.even_opp).
  replace (inb (2 * L - 1) (L - 1 - m)) with (inb (2 * L - 1) (L - 1 + m))
    by (apply eq_true_iff_eq; rewrite !inb_true; lia).
  assert (Cz : forall c : R, RtoC 0 = Cmult (RtoC c) (Cconj (RtoC 0))) by (intros c; unfold Cmult, Cconj, RtoC; cbn; f_equal; ring).
  destruct (_ && _); [|apply Cz].
  replace (L - 1 - m - (L - 1)) with (- m) by lia. replace (L - 1 + m - (L - 1)) with m by lia. rewrite Z.abs_opp.
  destruct (_ && _); [|apply Cz].
  unfold unpx. replace (L - 1 - m - (L - 1)) with (- m) by lia. replace (L - 1 + m - (L - 1)) with m by lia.
  replace (L - 1 - - m) with (L - 1 + m) by lia.
  assert (R : forall ix, snd (ndat f ix) = 0%R).
  { intros ix. rewrite <- Hf. reflexivity. }
  destruct (Z.eqb_spec m 0) as [->|].
  - change (- 0 =? 0) with true. cbv iota. rewrite Z.add_0_r, Z.sub_0_r. change (sign_of 0) with 1%R.
    specialize (R [l; L - 1]). destruct (ndat f [l; L - 1]) as [x y]. cbn in R. subst y. unfold Cmult, Cconj, RtoC; cbn; f_equal; ring.
  - replace (- m =? 0) with false by (symmetry; apply Z.eqb_neq; lia).
    assert (S2 : (sign_of m * sign_of m = 1)%R) by (rewrite sign_msgn; unfold msgn; destruct (Z.even m); ring).
    pose proof (R [l; L - 1 + m]) as R1. pose proof (R [l; L - 1 - m]) as R2.
    destruct (ndat f [l; L - 1 + m]) as [x x'], (ndat f [l; L - 1 - m]) as [y y']. cbn in R1, R2. subst x' y'.
    destruct (Z.ltb_spec 0 m).
    + replace (0 <? - m) with false by (symmetry; apply Z.ltb_ge; lia). rewrite Hs. reflexivity.
    + replace (0 <? - m) with true by (symmetry; apply Z.ltb_lt; lia).
      unfold Cmult, Cconj, Cplus, RtoC, ci; cbn. f_equal.
      * transitivity (sign_of m * sign_of m * (y * / c0))%R; [rewrite S2|]; ring.
      * transitivity (sign_of m * sign_of m * (x * / c0))%R; [rewrite S2|]; ring.
Qed.

(** ** A signal: all coefficients non-zero *)

Definition demo_flm (L : Z) : arr2 C :=
  mk2 L (2 * L - 1) (fun l q =>
    let m := q - (L - 1) in
    if Z.abs m <=? l then if 0 <=? m then RtoC 1 else RtoC (sign_of m) else RtoC 0).
Lemma demo_flm_ok L reality : is_harmonic L 0 reality (demo_flm L).
Proof.
  split.
  - repeat split; try reflexivity; unfold demo_flm, mk2 in H; cbn [get2] in H;
      destruct (_ && _) eqn:E in H; try (now contradict H); destruct (Z.leb_spec (Z.abs (L - 1 + m - (L - 1))) l); try (now contradict H);
      rewrite andb_true_iff, !inb_true in E; lia.
  - intros _ l m. unfold demo_flm, mk2. cbn [get2].
    assert (Hs : sign_of (- m) = sign_of m) by (rewrite !sign_msgn; unfold msgn; now rewrite Z.even_opp).
    assert (S2 : (sign_of m * sign_of m = 1)%R) by (rewrite sign_msgn; unfold msgn; destruct (Z.even m); ring).
    replace (inb (2 * L - 1) (L - 1 - m)) with (inb (2 * L - 1) (L - 1 + m))
      by (apply eq_true_iff_eq; rewrite !inb_true; lia).
    assert (Cz : forall c : R, RtoC 0 = Cmult (RtoC c) (Cconj (RtoC 0))) by (intros c; unfold Cmult, Cconj, RtoC; cbn; f_equal; ring).
    destruct (_ && _); [|apply Cz].
    replace (L - 1 - m - (L - 1)) with (- m) by lia. replace (L - 1 + m - (L - 1)) with m by lia. rewrite Z.abs_opp.
    destruct (_ <=? l); [|apply Cz].
    destruct (Z.leb_spec 0 m), (Z.leb_spec 0 (- m)); try lia; rewrite ?Hs; unfold Cmult, Cconj, RtoC; cbn; f_equal; try ring.
    + assert (m = 0) by lia. subst. change (sign_of 0) with 1%R. ring.
    + rewrite <- S2. ring.
Qed.
Lemma demo_flm_ne L l m : 0 <= l < L -> Z.abs m <= l -> get2 (demo_flm L) l (L - 1 + m) <> RtoC 0.
Proof.
  intros Hl Hm. unfold demo_flm. rewrite get2_mk by lia. cbv zeta. replace (L - 1 + m - (L - 1)) with m by lia.
  replace (Z.abs m <=? l) with true by (symmetry; apply Z.leb_le; lia).
  assert (S2 : (sign_of m * sign_of m = 1)%R) by (rewrite sign_msgn; unfold msgn; destruct (Z.even m); ring).
  destruct (0 <=? m); intros H; apply RtoC_inj in H; [lra|]. rewrite H in S2. lra.
Qed.

(** ** L = 5, lam = 2: J = 3, and the generating function never exceeds 1 *)

Lemma half5 l : 0 <= l < 5 -> upper_half 2 l.
Proof.
  intros Hl. assert (l = 0 \/ l = 1 \/ l = 2 \/ l = 3 \/ l = 4) as [->|[->|[->|[->| ->]]]] by lia.
  - now left.
  - right. exists 0. simpl. lra.
  - right. exists 1. simpl. lra.
  - right. exists 2. simpl. lra.
  - right. exists 2. simpl. lra.
Qed.
Lemma J5 : j_max 5 2 = Ok 3.
Proof. apply j_max_5_2. Qed.
Lemma k5 : exists k, k_lam 5 2 300 = Ok k /\
  (forall j l, 0 <= j <= 3 -> 0 <= l < 5 -> (get2 k j l <= 1)%R) /\
  (forall j l, 0 <= j <= 3 -> 0 <= l < 5 -> (get2 k j l <= get2 k (j + 1) l)%R).
Proof.
  exists (mk2 (3 + 2) 5 (kv 2 300)). split; [apply k_lam_ok; [lra|lia|lia|apply J5]|].
  assert (H : forall j l, 0 <= l < 5 -> (kv 2 300 j l <= 1)%R) by (intros; apply half_le1; [lra|now apply half5]).
  split; intros j l Hj Hl; rewrite !get2_mk by lia; auto.
  apply Rnot_lt_le. intros Hd. destruct (AxisymFacts.kdiff_neg 2 300 ltac:(lra) ltac:(lia) j l) as [_ K].
  - unfold AxisymFacts.kdiff. lra.
  - specialize (H j l Hl). lra.
Qed.
Lemma v5 N J_min : 1 <= N -> 0 <= J_min < 3 -> exists psi phi,
  filters_directional_vectorised 5 N J_min 2 0 0 = Ok (psi, phi) /\
  (forall l, 0 <= l < 5 -> dir_total 5 psi phi J_min 3 l = 1%R) /\
  shape3 psi = [3 + 1; 5; 2 * 5 - 1] /\ shape1 phi = [5].
Proof.
  intros HN HJ. destruct (valid_range 5 N 2 3 J_min 0 0) as (_ & _ & _ & _ & (p & q & E & S) & _); auto using J5; try lia; try lra.
  exists p, q. split; auto. split; [|exact S]. intros l Hl. apply (dir_adm_half 5 N 2 J_min 3 0 p q); auto using J5, half5; try lia; try lra.
Qed.
Lemma l5 N J_min : 1 <= N -> 0 <= J_min < 3 -> exists psi phi,
  filters_directional 5 N J_min 2 0 0 = Ok (psi, phi) /\
  (forall l, 0 <= l < 5 -> dir_total 5 psi phi J_min 3 l = 1%R).
Proof.
  intros HN HJ. destruct (valid_range 5 N 2 3 J_min 0 0) as (_ & _ & _ & (p & q & E & _) & _); auto using J5; try lia; try lra.
  exists p, q. split; auto. intros l Hl. apply (dir_adm_half 5 N 2 J_min 3 0 p q); auto using J5, half5; try lia; try lra.
Qed.
Lemma s5 N J_min mr : exists sz Ls, (forall j, LN_j 5 j N 2 mr = Ok (sz j)) /\ scal_bandlimit 5 J_min 2 mr = Ok Ls.
Proof.
  do 2 eexists. split; [intros; apply LN_j_ok; lra|]. apply scal_bandlimit_ok. lra.
Qed.
Lemma f5 s reality : equiangular s -> exists f, demo_inv (demo_flm 5) 5 0 s None reality = Ok f.
Proof. intros Hs. destruct (inv_fwd 5 0 s reality (demo_flm 5) ltac:(lia) Hs (demo_flm_ok 5 reality)) as (f & E & _). eauto. Qed.
Lemma one5 : scal_bandlimit 5 0 2 true = Ok 1.
Proof.
  rewrite scal_bandlimit_ok by lra. unfold Ls_of. rewrite pw_0. f_equal.
  replace (rceil 1) with 1; [reflexivity|]. symmetry. apply (rceil_IZR 1).
Qed.
