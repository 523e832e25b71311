(** Statements and proofs for PropertiesGrad.v *)

From Coq Require Import ZArith Reals List Bool Lia Lra FunctionalExtensionality.
From Coquelicot Require Import Rcomplements Complex Hierarchy Derive AutoDerive.
From Verif Require Import Py PyFacts ModelSamples SamplesFacts ModelFilters ModelTransforms Spec SpecTransforms SpecSteer
  FiltersFacts AxisymFacts DirectionFacts DirFilterFacts FiltersProps TransformsFacts BackendFacts LoopFacts
  ReconFacts RoundFacts Demo TransformsProps FrameProps QuadProps SteerProps SpecSignal SignalFacts SignalProps SpecGrad.
Import ListNotations.
Open Scope Z_scope.

(*T Linearity of every implementation, and gradients of quadratic losses *)
(*! From Coq Require Import ZArith Reals List Bool. *)
(*! From Coquelicot Require Import Complex Hierarchy Derive. *)
(*! From Verif Require Import Py ModelSamples ModelFilters ModelTransforms Spec SpecTransforms SpecSteer SpecSignal SpecGrad Demo. *)

(** ** Linearity of the steps *)

Lemma conj_lin a b x y : snd a = 0%R -> snd b = 0%R ->
  Cconj (Cplus (Cmult a x) (Cmult b y)) = Cplus (Cmult a (Cconj x)) (Cmult b (Cconj y)).
Proof.
  destruct a as [a1 a2], b as [b1 b2], x, y. cbn [snd]. intros -> ->. apply injective_projections; simpl; ring.
Qed.
Lemma one_pixel_lin a b x y : rows x = rows y -> cols x = cols y ->
  one_pixel (lin2 a b x y) = lin_nd a b (one_pixel x) (one_pixel y).
Proof.
  intros E1 E2. unfold one_pixel, nd_of2, map2, mk2, lin_nd, lin2. cbn [rows cols get2 nshape ndat]. f_equal.
  apply functional_extensionality. intros ix.
  repeat match goal with |- context [match ?l with [] => _ | _ :: _ => _ end] => destruct l end; try (symmetry; apply Cz2).
  rewrite <- E1, <- E2. destruct (_ && _); [ring|symmetry; apply Cz2].
Qed.
Lemma real_lin a b x y : snd a = 0%R -> snd b = 0%R ->
  nd_real (lin_nd a b x y) = lin_nd a b (nd_real x) (nd_real y).
Proof.
  intros Ha Hb. unfold nd_real, lin_nd. cbn [nshape ndat]. f_equal. apply functional_extensionality. intros ix.
  destruct a as [a1 a2], b as [b1 b2]. cbn [snd] in *. subst. destruct (ndat x ix), (ndat y ix).
  apply injective_projections; simpl; ring.
Qed.

Section Steps.
Variables (reality : bool) (a b : C).
Hypothesis Ha : scalar reality a.
Hypothesis Hb : scalar reality b.

Lemma wval_lin L psi x y j n l m :
  wval L psi (lin2 a b x y) j n l m = Cplus (Cmult a (wval L psi x j n l m)) (Cmult b (wval L psi y j n l m)).
Proof. unfold wval. cbn [lin2 get2]. ring. Qed.
Lemma wloop_lin L spin psi x y j Lj Nj L0j :
  wloop L spin psi (lin2 a b x y) reality j Lj Nj L0j
  = lin3 a b (wloop L spin psi x reality j Lj Nj L0j) (wloop L spin psi y reality j Lj Nj L0j).
Proof.
  unfold wloop, lin3, mk3. cbn [dim0 dim1 dim2 get3]. f_equal. do 3 (apply functional_extensionality; intros).
  cbv zeta. destruct (_ && _ && _); [|symmetry; apply Cz2]. destruct (_ && _ && _); [|symmetry; apply Cz2].
  unfold wvalr. destruct reality; cbn [andb]; [|apply wval_lin]. specialize (Ha eq_refl). specialize (Hb eq_refl).
  destruct (_ <? 0); [|apply wval_lin]. rewrite wval_lin, conj_lin by assumption. ring.
Qed.
Lemma sloop_lin L spin phi x y Ls :
  sloop L spin phi (lin2 a b x y) reality Ls
  = lin2 a b (sloop L spin phi x reality Ls) (sloop L spin phi y reality Ls).
Proof.
  unfold sloop, lin2 at 2, mk2. cbn [rows cols get2]. f_equal. do 2 (apply functional_extensionality; intros).
  cbv zeta. destruct (_ && _); [|symmetry; apply Cz2]. destruct (_ && _); [|symmetry; apply Cz2].
  unfold svalr. cbn [lin2 get2]. destruct reality; cbn [andb]; [|ring]. specialize (Ha eq_refl). specialize (Hb eq_refl).
  destruct (_ <? 0); [|ring]. 
  replace (Cmult (Cplus (Cmult a (get2 x x0 (L - 1 + - (x1 - (Ls - 1))))) (Cmult b (get2 y x0 (L - 1 + - (x1 - (Ls - 1)))))) (pval phi x0))
    with (Cplus (Cmult a (Cmult (get2 x x0 (L - 1 + - (x1 - (Ls - 1)))) (pval phi x0)))
                (Cmult b (Cmult (get2 y x0 (L - 1 + - (x1 - (Ls - 1)))) (pval phi x0)))) by ring.
  rewrite conj_lin by assumption. ring.
Qed.

Lemma nd0_lin : nd0 = lin3 a b nd0 nd0.
Proof.
  unfold nd0, lin3, mk3. cbn [dim0 dim1 dim2 get3]. f_equal. do 3 (apply functional_extensionality; intros).
  destruct (_ && _ && _); symmetry; apply Cz2.
Qed.
Lemma Tnth_lin lo Ws Vs j : length Ws = length Vs ->
  Tnth nd0 lo (map (fun p => lin3 a b (fst p) (snd p)) (combine Ws Vs)) j = lin3 a b (Tnth nd0 lo Ws j) (Tnth nd0 lo Vs j).
Proof.
  intros H. unfold Tnth. rewrite nd0_lin at 1.
  rewrite (map_nth (fun p => lin3 a b (fst p) (snd p)) (combine Ws Vs) (nd0, nd0)).
  rewrite combine_nth by assumption. reflexivity.
Qed.
Lemma syn_list_lin L N J_min J lam mr psi phi Ws Vs S T : length Ws = length Vs ->
  syn L N J_min J lam mr psi phi (map (fun p => lin3 a b (fst p) (snd p)) (combine Ws Vs)) (lin2 a b S T)
  = lin2 a b (syn L N J_min J lam mr psi phi Ws S) (syn L N J_min J lam mr psi phi Vs T).
Proof.
  intros H. unfold syn. rewrite <- syn_lin. f_equal. apply functional_extensionality. intros j. now apply Tnth_lin.
Qed.
Lemma wpart_lin L spin psi j Lj Nj L0j W V l m :
  wpart_loop L spin psi j Lj Nj L0j (lin3 a b W V) l m
  = Cplus (Cmult a (wpart_loop L spin psi j Lj Nj L0j W l m)) (Cmult b (wpart_loop L spin psi j Lj Nj L0j V l m)).
Proof.
  unfold wpart_loop. destruct (_ <=? _); [|symmetry; apply Cz2]. rewrite <- !csumZ_mul, <- csumZ_plus. apply csumZ_ext.
  intros n _. cbn [lin3 get3]. destruct (_ && _ && _); ring.
Qed.
Lemma synl_list_lin L N J_min J lam mr spin psi phi Ws Vs S T : length Ws = length Vs ->
  synl L N J_min J lam mr spin psi phi reality (map (fun p => lin3 a b (fst p) (snd p)) (combine Ws Vs)) (lin2 a b S T)
  = lin2 a b (synl L N J_min J lam mr spin psi phi reality Ws S) (synl L N J_min J lam mr spin psi phi reality Vs T).
Proof.
  intros H. unfold synl, lin2 at 2, mk2. cbn [rows cols get2]. f_equal.
  apply functional_extensionality; intros l. apply functional_extensionality; intros q.
  destruct (_ && _); [|symmetry; apply Cz2].
  set (gW := fun l m => csumZ J_min (J + 1) (fun j => wpart_loop L spin psi j _ _ _ (Tnth nd0 J_min Ws j) l m)).
  set (gV := fun l m => csumZ J_min (J + 1) (fun j => wpart_loop L spin psi j _ _ _ (Tnth nd0 J_min Vs j) l m)).
  set (g := fun l m => csumZ J_min (J + 1) _).
  assert (E : forall l m, g l m = Cplus (Cmult a (gW l m)) (Cmult b (gV l m))).
  { intros l' m'. unfold g, gW, gV. rewrite <- !csumZ_mul, <- csumZ_plus. apply csumZ_ext. intros j _.
    rewrite Tnth_lin by assumption. apply wpart_lin. }
  clearbody g gW gV. unfold sy_fin. cbn [lin2 get2]. rewrite !E.
  destruct (_ && _ && _); [|reflexivity]. destruct reality; cbn [andb]; [|ring].
  specialize (Ha eq_refl). specialize (Hb eq_refl). destruct (_ <? 0); [|ring].
  match goal with |- context [Cconj (Cplus (Cplus (Cmult a ?u) (Cmult b ?v)) (Cmult (Cplus (Cmult a ?x) (Cmult b ?y)) ?p))] =>
    replace (Cplus (Cplus (Cmult a u) (Cmult b v)) (Cmult (Cplus (Cmult a x) (Cmult b y)) p))
      with (Cplus (Cmult a (Cplus u (Cmult x p))) (Cmult b (Cplus v (Cmult y p)))) by ring end.
  rewrite conj_lin by assumption. ring.
Qed.

(** ** An analysis, a synthesis, from linear steps *)

Lemma an_gen (fwd : nd -> res (arr2 C)) (wi : Z -> arr3 C -> res nd) (iv : arr2 C -> res nd)
    (WC : arr2 C -> Z -> arr3 C) (SC : arr2 C -> arr2 C) l f g w sc v tc :
  (forall x y, fwd f = Ok x -> fwd g = Ok y -> fwd (lin_nd a b f g) = Ok (lin2 a b x y)) ->
  (forall x y j, In j l -> WC (lin2 a b x y) j = lin3 a b (WC x j) (WC y j)) ->
  (forall x y, SC (lin2 a b x y) = lin2 a b (SC x) (SC y)) ->
  (forall j x y p q, In j l -> wi j (WC x j) = Ok p -> wi j (WC y j) = Ok q ->
     wi j (lin3 a b (WC x j) (WC y j)) = Ok (lin_nd a b p q)) ->
  (forall x y p q, iv (SC x) = Ok p -> iv (SC y) = Ok q -> iv (lin2 a b (SC x) (SC y)) = Ok (lin_nd a b p q)) ->
  (flm <- fwd f ;; w <- mapM (fun j => wi j (WC flm j)) l ;; sc <- iv (SC flm) ;; Ok (w, sc)) = Ok (w, sc) ->
  (flm <- fwd g ;; w <- mapM (fun j => wi j (WC flm j)) l ;; sc <- iv (SC flm) ;; Ok (w, sc)) = Ok (v, tc) ->
  (flm <- fwd (lin_nd a b f g) ;; w <- mapM (fun j => wi j (WC flm j)) l ;; sc <- iv (SC flm) ;; Ok (w, sc))
  = Ok (lin_list a b w v, lin_nd a b sc tc) /\ length w = length v.
Proof.
  intros H1 H2 H3 H4 H5 E1 E2.
  apply bind_inv in E1 as (flm & Ef & E1). apply bind_inv in E1 as (w1 & Ew & E1).
  apply bind_inv in E1 as (sc1 & Es & E1). apply Ok_inj in E1. apply pair_equal_spec in E1 as [-> ->].
  apply bind_inv in E2 as (glm & Eg & E2). apply bind_inv in E2 as (v1 & Ev & E2).
  apply bind_inv in E2 as (tc1 & Et & E2). apply Ok_inj in E2. apply pair_equal_spec in E2 as [-> ->].
  rewrite (H1 flm glm Ef Eg). cbn [bind].
  rewrite (mapM_lin (lin_nd a b) (fun j => wi j (WC flm j)) (fun j => wi j (WC glm j)) _ l w v); auto.
  2:{ intros j p q Hj A B. rewrite H2 by assumption. now apply H4. }
  cbn [bind]. rewrite H3. rewrite (H5 flm glm sc tc Es Et). split; [reflexivity|].
  apply mapM_inv in Ew as [Ew _]. apply mapM_inv in Ev as [Ev _]. congruence.
Qed.

Lemma sy_gen (ck : list nd -> nd -> res unit) (fwd : nd -> res (arr2 C)) (wf : Z -> nd -> res (arr3 C)) (iv : arr2 C -> res nd)
    (SY : list (arr3 C) -> arr2 C -> arr2 C) lo l w sc v tc x y :
  map nshape w = map nshape v -> nshape sc = nshape tc ->
  ck (lin_list a b w v) (lin_nd a b sc tc) = ck w sc ->
  (forall p q, fwd sc = Ok p -> fwd tc = Ok q -> fwd (lin_nd a b sc tc) = Ok (lin2 a b p q)) ->
  (forall j f g p q, In j l -> nshape f = nshape g -> wf j f = Ok p -> wf j g = Ok q ->
     wf j (lin_nd a b f g) = Ok (lin3 a b p q)) ->
  (forall Ws Vs S T, length Ws = length Vs ->
     SY (map (fun p => lin3 a b (fst p) (snd p)) (combine Ws Vs)) (lin2 a b S T) = lin2 a b (SY Ws S) (SY Vs T)) ->
  (forall Ws Vs S T p q, iv (SY Ws S) = Ok p -> iv (SY Vs T) = Ok q ->
     iv (lin2 a b (SY Ws S) (SY Vs T)) = Ok (lin_nd a b p q)) ->
  (_ <- ck w sc ;; S <- fwd sc ;; Ts <- mapM (fun j => fj <- lrd w (j - lo) ;; wf j fj) l ;; iv (SY Ts S)) = Ok x ->
  (_ <- ck v tc ;; S <- fwd tc ;; Ts <- mapM (fun j => fj <- lrd v (j - lo) ;; wf j fj) l ;; iv (SY Ts S)) = Ok y ->
  (_ <- ck (lin_list a b w v) (lin_nd a b sc tc) ;; S <- fwd (lin_nd a b sc tc) ;;
   Ts <- mapM (fun j => fj <- lrd (lin_list a b w v) (j - lo) ;; wf j fj) l ;; iv (SY Ts S)) = Ok (lin_nd a b x y).
Proof.
  intros Hwv Hst Hck H1 H2 H3 H4 E1 E2.
  assert (Hn : length w = length v) by (rewrite <- (map_length nshape w), Hwv; apply map_length).
  apply bind_inv in E1 as ([] & EC & E1). apply bind_inv in E1 as (S & ES & E1). apply bind_inv in E1 as (Ws & EW & E1).
  apply bind_inv in E2 as ([] & _ & E2). apply bind_inv in E2 as (T & ET & E2). apply bind_inv in E2 as (Vs & EV & E2).
  rewrite Hck, EC. cbn [bind]. rewrite (H1 S T ES ET). cbn [bind].
  rewrite (mapM_lin (lin3 a b) (fun j => fj <- lrd w (j - lo) ;; wf j fj) (fun j => fj <- lrd v (j - lo) ;; wf j fj) _ l Ws Vs); auto.
  2:{ intros j p q Hj A B. apply bind_inv in A as (fj & Efj & A). apply bind_inv in B as (gj & Egj & B).
      rewrite (lrd_combine w v a b (j - lo) fj gj) by auto. cbn [bind]. apply H2; auto.
      pose proof (lrd_shape w v (j - lo) Hwv) as Esh. rewrite Efj, Egj in Esh. now apply Ok_inj in Esh. }
  cbn [bind]. apply mapM_inv in EW as [LW _]. apply mapM_inv in EV as [LV _].
  rewrite H3 by congruence. now apply H4.
Qed.
End Steps.

(*% ** C30: every implementation is linear *)

Ltac sh2 Hsh := let H := fresh in intros ? H; apply (proj1 Hsh) in H; unfold shape2 in H;
  injection H as ? ?; split; assumption.
Ltac sh3 Hsh := let j := fresh "j" in let f := fresh "f" in let T := fresh "T" in let E := fresh "E" in
  intros j f T _ _ E; apply (proj2 Hsh) in E; unfold shape3 in E; injection E as ? ? ?; split; [|split]; assumption.

(** where the scaling map has one pixel *)
Lemma iv_lin (one : bool) a b (inv : arr2 C -> res nd) x y p q : rows x = rows y -> cols x = cols y ->
  (one = false -> inv x = Ok p -> inv y = Ok q -> inv (lin2 a b x y) = Ok (lin_nd a b p q)) ->
  (if one then Ok (one_pixel x) else inv x) = Ok p -> (if one then Ok (one_pixel y) else inv y) = Ok q ->
  (if one then Ok (one_pixel (lin2 a b x y)) else inv (lin2 a b x y)) = Ok (lin_nd a b p q).
Proof.
  intros E1 E2 H A B. destruct one; [|now apply H]. apply Ok_inj in A, B. subst. now rewrite one_pixel_lin.
Qed.

Lemma every_an_lin2 : forall b O L N lam J_min J spin spin0 s nside reality mr psi phi T,
  1 <= L -> 1 <= N <= L -> (1 < lam)%R -> j_max L lam = Ok J -> sampling_known s nside ->
  fwd_shapes_b (lib_of b O) spin s nside reality -> linear_b (lib_of b O) spin s nside reality ->
  analyser b O L N J_min lam spin spin0 s nside reality mr psi phi T ->
  forall x y f g p q, scalar reality x -> scalar reality y -> nshape f = nshape g -> T f = Ok p -> T g = Ok q ->
  T (lin_nd x y f g) = Ok (lin_maps x y p q) /\ length (fst p) = length (fst q).
Proof.
  intros b O L N lam J_min J spin spin0 s nside reality mr psi phi T HL HN Hl EJ Hs Hsh HLin A x y f g [w sc] [v tc] Hx Hy Hfg E1 E2.
  assert (HI : is_filters L N J_min lam spin spin0 psi phi).
  { destruct b; [destruct A as [(E & _)|(E & _)]; [right; left|left]; exact E|destruct A as (E & _); exact E..]. }
  pose proof (filt_J L N J_min J spin spin0 lam psi phi HL ltac:(lia) Hl HI EJ) as HF. filt_facts HF.
  unfold lin_maps. cbn [fst snd].
  destruct HLin as (L1 & L2 & L3 & L4). destruct b.
  - change (lib_of Base O) with O in *. destruct A as [(E & ->)|(E & ->)].
    + destruct (Z.eq_dec spin0 0) as [->|Hn]; [|rewrite spin_fail_vec in E by assumption; discriminate].
      pose proof (fun f => analysis_ok L N J_min J lam mr HL HN Hl EJ0 ltac:(lia) O f spin s nside reality false psi phi
        ltac:(lia) ltac:(eapply known_some; eauto) E Hpsi Hphi ltac:(sh2 Hsh)) as AN.
      rewrite AN in *. clear AN.
      refine (an_gen x y (fun f => b_fwd O f L spin s nside reality) (fun j c => b_winv O c _ _ _ s reality nside)
        (fun c => b_inv O c _ spin s nside reality) (fun flm j => wc L N lam mr psi flm j) (fun flm => scaling_coefs L phi flm _)
        _ f g w sc v tc _ _ _ _ _ E1 E2).
      * intros p q. now apply L1.
      * intros p q j _. apply (wc_lin L psi p q (szf L N lam mr) j x y).
      * intros p q. apply sc_lin.
      * intros j p q p' q' _. now apply L4.
      * intros p q p' q'. now apply L2.
    + pose proof (fun f => analysis_looped_ok L N J_min J lam mr HL (proj1 HN) Hl EJ0 ltac:(lia) O f spin spin0 s nside reality psi phi
        ltac:(lia) Hs E Hpsi Hphi ltac:(sh2 Hsh)) as AN.
      rewrite AN in *. clear AN.
      refine (an_gen x y (fun f => b_fwd O f L spin s nside reality) (fun j c => b_winv O c _ _ _ s reality nside)
        (fun c => b_inv O c _ spin s nside reality) (fun flm j => wloop L spin psi flm reality j _ _ _) (fun flm => sloop L spin phi flm reality _)
        _ f g w sc v tc _ _ _ _ _ E1 E2).
      * intros p q. now apply L1.
      * intros p q j _. now apply wloop_lin.
      * intros p q. now apply sloop_lin.
      * intros j p q p' q' _. now apply L4.
      * intros p q p' q'. now apply L2.
  - destruct A as (_ & -> & p & q & Eq & Hp & ->).
    assert (Ep : forall f, jax_analysis O f L N J_min lam spin s nside reality (Some (psi, phi)) p
      = jax_analysis O f L N J_min lam spin s nside reality (Some (psi, phi)) (Some q)).
    { intros f'. destruct Hp as [->| ->]; [|reflexivity]. unfold jax_analysis. rewrite Eq. reflexivity. }
    rewrite Ep in *. clear Ep.
    pose proof (fun f => jax_analysis_ok L N J_min J lam HL HN Hl EJ0 ltac:(lia) O f spin s nside reality psi phi q
      ltac:(lia) Hpsi Hphi ltac:(sh2 Hsh)) as AN.
    rewrite AN in *. clear AN.
    rewrite (gen_wigner_ok L N J_min lam s nside false reality J) in Eq by (auto; lra || lia). apply Ok_inj in Eq.
    refine (an_gen x y (fun f => j_fwd O f L spin nside s reality) 
      (fun j c => pj <- lrd q (j - J_min) ;; j_winv O c _ _ nside s reality pj _)
      (fun c => if Ls_of L J_min lam true =? 1 then Ok (one_pixel c) else j_inv O c _ spin nside s reality)
      (fun flm j => wc L N lam true psi flm j) (fun flm => scaling_coefs L phi flm _)
      _ f g w sc v tc _ _ _ _ _ E1 E2).
    * intros p' q'. now apply L1.
    * intros p' q' j _. apply (wc_lin L psi p' q' (szf L N lam true) j x y).
    * intros p' q'. apply sc_lin.
    * intros j p' q' p'' q'' Hj. apply In_zrange in Hj. rewrite <- Eq, lrd_map by lia. cbn [bind].
      now apply (L4 (Lj_of L j lam true) (Nj_of L j N lam true) (L0_of j lam true) x y).
    * intros p' q' p'' q''.
      apply (iv_lin (Ls_of L J_min lam true =? 1) x y (fun c => b_inv (lib_of Jax O) c (Ls_of L J_min lam true) spin s nside reality));
        try reflexivity. intros _. now apply L2.
  - destruct A as (_ & -> & Hsp & p & Eq & ->). rewrite Hsp in *.
    rewrite (gen_full_ok L N J_min lam s nside false reality false J) in Eq by (auto; lra || lia).
    cbn [negb] in Eq. apply Ok_inj in Eq. subst p.
    pose proof (fun f => pre_analysis_ok L N J_min J lam HL HN Hl EJ0 ltac:(lia) O f 0 s nside reality psi phi
      _ (Some (SKern (Ls_of L J_min lam true) 0 reality s nside false)) (map (wkf L N lam s nside false reality) (zrange J_min J))
      ltac:(lia) Hpsi Hphi ltac:(sh2 Hsh)) as AN.
    rewrite AN in *. clear AN. cbn [need bind] in *.
    refine (an_gen x y (fun f => p_fwd O f _ L s reality 0 nside) 
      (fun j c => pj <- lrd _ (j - J_min + (if j <? J then 0 else -1)) ;; p_winv O c pj _ _ s reality nside)
      (fun c => if Ls_of L J_min lam true =? 1 then Ok (one_pixel c) else p_inv O c _ _ s reality 0 nside)
      (fun flm j => wc L N lam true psi flm j) (fun flm => scaling_coefs L phi flm _)
      _ f g w sc v tc _ _ _ _ _ E1 E2).
    * intros p' q'. now apply L1.
    * intros p' q' j _. apply (wc_lin L psi p' q' (szf L N lam true) j x y).
    * intros p' q'. apply sc_lin.
    * intros j p' q' p'' q'' Hj. apply In_zrange in Hj. rewrite wk_nth by (auto; lia). cbn [bind].
      now apply (L4 (Lj_of L j lam true) (Nj_of L j N lam true) (L0_of j lam true) x y).
    * intros p' q' p'' q''.
      apply (iv_lin (Ls_of L J_min lam true =? 1) x y (fun c => b_inv (lib_of Precompute O) c (Ls_of L J_min lam true) 0 s nside reality));
        try reflexivity. intros _. now apply L2.
  - destruct A as (_ & -> & Hsp & p & Eq & ->). rewrite Hsp in *.
    rewrite (gen_full_ok L N J_min lam s nside false reality false J) in Eq by (auto; lra || lia).
    cbn [negb] in Eq. apply Ok_inj in Eq. subst p.
    pose proof (fun f => torch_analysis_ok L N J_min J lam HL HN Hl EJ0 ltac:(lia) O f 0 s nside reality psi phi
      _ (Some (SKern (Ls_of L J_min lam true) 0 reality s nside false)) (map (wkf L N lam s nside false reality) (zrange J_min J))
      ltac:(lia) Hpsi Hphi ltac:(sh2 Hsh)) as AN.
    rewrite AN in *. clear AN. cbn [need bind] in *.
    assert (Tr : forall (r : res (arr2 C)) (W : arr2 C -> res (list nd)) (I : arr2 C -> res nd),
      (x0 <- (flm <- r ;; w <- W flm ;; sc <- I flm ;; Ok (map Some w, sc)) ;;
       w0 <- mapM need (fst x0) ;; Ok (w0, snd x0)) = (flm <- r ;; w <- W flm ;; sc <- I flm ;; Ok (w, sc))).
    { intros r W I. destruct r; cbn [bind]; [|reflexivity]. destruct (W a) as [ws|]; cbn [bind]; [|reflexivity].
      destruct (I a); cbn [bind]; [|reflexivity]. cbn [fst snd].
      replace (mapM need (map Some ws)) with (Ok ws); [reflexivity|]. symmetry.
      clear. induction ws as [|c ws IH]; [reflexivity|]. cbn [map mapM need bind]. now rewrite IH. }
    rewrite Tr in *. clear Tr.
    refine (an_gen x y (fun f => t_fwd O f _ L s reality 0 nside) 
      (fun j c => pj <- lrd _ (j - J_min + (if j <? J then 0 else -1)) ;; t_winv O c pj _ _ s reality nside)
      (fun c => if Ls_of L J_min lam true =? 1 then Ok (one_pixel c) else t_inv O c _ _ s reality 0 nside)
      (fun flm j => wc L N lam true psi flm j) (fun flm => scaling_coefs L phi flm _)
      _ f g w sc v tc _ _ _ _ _ E1 E2).
    * intros p' q'. now apply L1.
    * intros p' q' j _. apply (wc_lin L psi p' q' (szf L N lam true) j x y).
    * intros p' q'. apply sc_lin.
    * intros j p' q' p'' q'' Hj. apply In_zrange in Hj. rewrite wk_nth by (auto; lia). cbn [bind].
      now apply (L4 (Lj_of L j lam true) (Nj_of L j N lam true) (L0_of j lam true) x y).
    * intros p' q' p'' q''.
      apply (iv_lin (Ls_of L J_min lam true =? 1) x y (fun c => b_inv (lib_of Torch O) c (Ls_of L J_min lam true) 0 s nside reality));
        try reflexivity. intros _. now apply L2.
  - destruct A as (_ & -> & Hns & ->).
    assert (Ei : exists ix, ssht_sampling s = Ok ix /\ ix = match s with MW => 0 | MWSS => 1 | DH => 2 | _ => 3 end).
    { destruct s; try (eexists; split; reflexivity); cbn in E1; discriminate. }
    destruct Ei as (ix & Ei & Eix).
    assert (Hsh' : forall f flm, c_fwd O f L spin reality ix = Ok flm -> flm_sh L flm).
    { rewrite Eix. intros f'. sh2 Hsh. }
    pose proof (fun f => ssht_analysis_ok L N J_min J lam HL HN Hl EJ0 ltac:(lia) O f spin s reality psi phi ix
      ltac:(lia) Ei Hpsi Hphi (Hsh' f)) as AN.
    rewrite AN in *. clear AN. clear Ei. subst ix.
    refine (an_gen x y (fun f => c_fwd O f L spin reality _) 
      (fun j c => c_winv O c _ _ _ s reality)
      (fun c => if Ls_of L J_min lam true =? 1 then Ok (one_pixel c) else c_inv O c _ spin reality _)
      (fun flm j => wc L N lam true psi flm j) (fun flm => scaling_coefs L phi flm _)
      _ f g w sc v tc _ _ _ _ _ E1 E2).
    * intros p' q'. now apply L1.
    * intros p' q' j _. apply (wc_lin L psi p' q' (szf L N lam true) j x y).
    * intros p' q'. apply sc_lin.
    * intros j p' q' p'' q'' _. now apply (L4 (Lj_of L j lam true) (Nj_of L j N lam true) (L0_of j lam true) x y).
    * intros p' q' p'' q''.
      apply (iv_lin (Ls_of L J_min lam true =? 1) x y (fun c => b_inv (lib_of Ssht O) c (Ls_of L J_min lam true) spin s nside reality));
        try reflexivity. intros _. now apply L2.
Qed.

(*@ C30_every_analysis_linear *)
Lemma every_an_lin : forall b O L N lam J_min J spin spin0 s nside reality mr psi phi T,
  1 <= L -> 1 <= N <= L -> (1 < lam)%R -> j_max L lam = Ok J -> sampling_known s nside ->
  fwd_shapes_b (lib_of b O) spin s nside reality -> linear_b (lib_of b O) spin s nside reality ->
  analyser b O L N J_min lam spin spin0 s nside reality mr psi phi T ->
  linear (scalar reality) nshape lin_nd lin_maps T.
Proof.
  intros b O L N lam J_min J spin spin0 s nside reality mr psi phi T HL HN Hl EJ Hs Hsh HLin A x y f g p q Hx Hy Hfg E1 E2.
  now apply (every_an_lin2 b O L N lam J_min J spin spin0 s nside reality mr psi phi T).
Qed.

(*@ C30_every_synthesis_linear *)
Lemma every_sy_lin : forall b O L N lam J_min J spin spin0 s nside reality mr psi phi T,
  1 <= L -> 1 <= N <= L -> (1 < lam)%R -> j_max L lam = Ok J ->
  fwd_shapes_b (lib_of b O) spin s nside reality -> linear_b (lib_of b O) spin s nside reality ->
  synthesiser b O L N J_min lam spin spin0 s nside reality mr psi phi T ->
  linear (scalar reality) maps_shape lin_maps lin_nd T.
Proof.
  intros b O L N lam J_min J spin spin0 s nside reality mr psi phi T HL HN Hl EJ Hsh HLin A x y [w sc] [v tc] f g Hx Hy Hwv E1 E2.
  unfold maps_shape in Hwv. cbn [fst snd] in Hwv. apply pair_equal_spec in Hwv as [Hwv Hst].
  assert (HI : is_filters L N J_min lam spin spin0 psi phi).
  { destruct b; [destruct A as [(E & _)|(E & _)]; [right; left|left]; exact E|destruct A as (E & _); exact E..]. }
  pose proof (filt_J L N J_min J spin spin0 lam psi phi HL ltac:(lia) Hl HI EJ) as HF. filt_facts HF.
  assert (Hn : length w = length v) by (rewrite <- (map_length nshape w), Hwv; apply map_length).
  unfold lin_maps. cbn [fst snd].
  destruct HLin as (L1 & L2 & L3 & L4). destruct b.
  - change (lib_of Base O) with O in *. destruct A as [(E & ->)|(E & ->)]; cbn [fst snd] in *.
    + destruct (Z.eq_dec spin0 0) as [->|Hn0]; [|rewrite spin_fail_vec in E by assumption; discriminate].
      pose proof (fun w sc => synthesis_ok L N J_min J lam mr HL HN Hl EJ0 ltac:(lia) O w sc spin s nside reality psi phi
        ltac:(lia) E Hpsi Hphi ltac:(sh2 Hsh) ltac:(sh3 Hsh)) as SN.
      rewrite SN in *. clear SN.
      refine (sy_gen x y (fun w sc => wavelet_shape_check w sc L N J_min lam s nside mr)
        (fun f => b_fwd O f _ spin s nside reality) (fun j c => b_wfwd O c _ _ _ s reality nside)
        (fun c => b_inv O c L spin s nside reality) (syn L N J_min J lam mr psi phi)
        J_min _ w sc v tc f g Hwv Hst _ _ _ _ _ E1 E2).
      * apply check_shapes; auto using lin_list_shapes.
      * intros p q. now apply L1.
      * intros j f' g' p q _ Hfg. now apply L3.
      * intros Ws Vs S T' Hl'. now apply syn_list_lin.
      * intros Ws Vs S T' p q. now apply L2.
    + pose proof (fun w sc => synthesis_looped_ok L N J_min J lam mr HL (proj1 HN) Hl EJ0 ltac:(lia) O w sc spin spin0 s nside reality psi phi
        ltac:(lia) E Hpsi Hphi ltac:(sh2 Hsh) ltac:(sh3 Hsh)) as SN.
      rewrite SN in *. clear SN.
      refine (sy_gen x y (fun w sc => wavelet_shape_check w sc L N J_min lam s nside mr)
        (fun f => b_fwd O f _ spin s nside reality) (fun j c => b_wfwd O c _ _ _ s reality nside)
        (fun c => b_inv O c L spin s nside reality) (synl L N J_min J lam mr spin psi phi reality)
        J_min _ w sc v tc f g Hwv Hst _ _ _ _ _ E1 E2).
      * apply check_shapes; auto using lin_list_shapes.
      * intros p q. now apply L1.
      * intros j f' g' p q _ Hfg. now apply L3.
      * intros Ws Vs S T' Hl'. now apply synl_list_lin.
      * intros Ws Vs S T' p q. now apply L2.
  - destruct A as (_ & -> & p & q & Eq & Hp & ->). cbn [fst snd] in *.
    assert (Ep : forall w sc, jax_synthesis O w sc L N J_min lam spin s nside reality (Some (psi, phi)) p
      = jax_synthesis O w sc L N J_min lam spin s nside reality (Some (psi, phi)) (Some q)).
    { intros w' sc'. destruct Hp as [->| ->]; [|reflexivity]. unfold jax_synthesis. rewrite Eq. reflexivity. }
    rewrite Ep in *. clear Ep.
    rewrite (gen_wigner_ok L N J_min lam s nside true reality J) in Eq by (auto; lra || lia). apply Ok_inj in Eq.
    assert (Hk : forall j, J_min <= j <= J -> lrd q (j - J_min) = Ok (rkf L N lam s nside true reality j)).
    { intros j Hj. rewrite <- Eq, lrd_map by lia. reflexivity. }
    assert (HT : forall (w : list nd) j fj pj T, J_min <= j <= J -> lrd w (j - J_min) = Ok fj -> lrd q (j - J_min) = Ok pj ->
      j_wfwd O fj (Lj_of L j lam true) (Nj_of L j N lam true) nside s reality pj (L0_of j lam true) = Ok T ->
      flmn_sh (Nj_of L j N lam true) (Lj_of L j lam true) T).
    { intros w' j fj pj T Hj Efj Epj E. rewrite Hk in Epj by assumption. apply Ok_inj in Epj. subst pj.
      pose proof (proj2 Hsh fj (Lj_of L j lam true) (Nj_of L j N lam true) (L0_of j lam true) T E) as H.
      unfold shape3 in H. injection H as ? ? ?. split; [|split]; assumption. }
    pose proof (fun w sc => jax_synthesis_ok L N J_min J lam HL HN Hl EJ0 ltac:(lia) O w sc spin s nside reality psi phi q
      ltac:(lia) Hpsi Hphi ltac:(sh2 Hsh) (HT w)) as SN.
    rewrite SN in *. clear SN.
    refine (sy_gen x y (fun _ _ => Ok tt)
      (fun f => j_fwd O f _ spin nside s reality) (fun j c => pj <- lrd q (j - J_min) ;; j_wfwd O c _ _ nside s reality pj _)
      (fun c => j_inv O c L spin nside s reality) (syn L N J_min J lam true psi phi)
      J_min _ w sc v tc f g Hwv Hst eq_refl _ _ _ _ E1 E2).
    * intros p' q'. now apply L1.
    * intros j f' g' p' q' Hj Hfg. apply In_zrange in Hj. rewrite Hk by lia. cbn [bind].
      now apply (L3 (Lj_of L j lam true) (Nj_of L j N lam true) (L0_of j lam true) x y).
    * intros Ws Vs S T' Hl'. now apply syn_list_lin.
    * intros Ws Vs S T' p' q'. now apply L2.
  - destruct A as (_ & -> & Hsp & p & Eq & ->). rewrite Hsp in *. cbn [fst snd] in *.
    rewrite (gen_full_ok L N J_min lam s nside true reality false J) in Eq by (auto; lra || lia).
    cbn [negb] in Eq. apply Ok_inj in Eq. subst p.
    assert (HT : forall (w : list nd) j fj pj T, J_min <= j <= J -> lrd w (j - J_min) = Ok fj ->
      lrd (map (wkf L N lam s nside true reality) (zrange J_min J)) (j - J_min + (if j <? J then 0 else -1)) = Ok pj ->
      p_wfwd O fj pj (Lj_of L j lam true) (Nj_of L j N lam true) s reality nside = Ok T ->
      flmn_sh (Nj_of L j N lam true) (Lj_of L j lam true) T).
    { intros w' j fj pj T Hj Efj Epj E. rewrite wk_nth in Epj by (auto; lia). apply Ok_inj in Epj. subst pj.
      pose proof (proj2 Hsh fj (Lj_of L j lam true) (Nj_of L j N lam true) (L0_of j lam true) T E) as H.
      unfold shape3 in H. injection H as ? ? ?. split; [|split]; assumption. }
    pose proof (fun w sc => pre_synthesis_ok L N J_min J lam HL HN Hl EJ0 ltac:(lia) O w sc 0 s nside reality psi phi
      (SKern L 0 reality s nside false) (SKern (Ls_of L J_min lam true) 0 reality s nside true) _
      ltac:(lia) Hpsi Hphi ltac:(sh2 Hsh) (HT w)) as SN.
    rewrite SN in *. clear SN.
    refine (sy_gen x y (fun _ _ => Ok tt)
      (fun f => p_fwd O f _ _ s reality 0 nside)
      (fun j c => pj <- lrd _ (j - J_min + (if j <? J then 0 else -1)) ;; p_wfwd O c pj _ _ s reality nside)
      (fun c => p_inv O c _ L s reality 0 nside) (syn L N J_min J lam true psi phi)
      J_min _ w sc v tc f g Hwv Hst eq_refl _ _ _ _ E1 E2).
    * intros p' q'. now apply L1.
    * intros j f' g' p' q' Hj Hfg. apply In_zrange in Hj. rewrite wk_nth by (auto; lia). cbn [bind].
      now apply (L3 (Lj_of L j lam true) (Nj_of L j N lam true) (L0_of j lam true) x y).
    * intros Ws Vs S T' Hl'. now apply syn_list_lin.
    * intros Ws Vs S T' p' q'. now apply L2.
  - destruct A as (_ & -> & Hsp & p & Eq & ->). rewrite Hsp in *. cbn [fst snd] in *.
    rewrite (gen_full_ok L N J_min lam s nside true reality false J) in Eq by (auto; lra || lia).
    cbn [negb] in Eq. apply Ok_inj in Eq. subst p.
    assert (HT : forall (w : list nd) j fj pj T, J_min <= j <= J -> lrd w (j - J_min) = Ok fj ->
      lrd (map (wkf L N lam s nside true reality) (zrange J_min J)) (j - J_min + (if j <? J then 0 else -1)) = Ok pj ->
      t_wfwd O fj pj (Lj_of L j lam true) (Nj_of L j N lam true) s reality nside = Ok T ->
      flmn_sh (Nj_of L j N lam true) (Lj_of L j lam true) T).
    { intros w' j fj pj T Hj Efj Epj E. rewrite wk_nth in Epj by (auto; lia). apply Ok_inj in Epj. subst pj.
      pose proof (proj2 Hsh fj (Lj_of L j lam true) (Nj_of L j N lam true) (L0_of j lam true) T E) as H.
      unfold shape3 in H. injection H as ? ? ?. split; [|split]; assumption. }
    pose proof (fun w sc => torch_synthesis_ok L N J_min J lam HL HN Hl EJ0 ltac:(lia) O w sc 0 s nside reality psi phi
      (SKern L 0 reality s nside false) (SKern (Ls_of L J_min lam true) 0 reality s nside true) _
      ltac:(lia) Hpsi Hphi ltac:(sh2 Hsh) (HT w)) as SN.
    rewrite SN in *. clear SN.
    refine (sy_gen x y (fun _ _ => Ok tt)
      (fun f => t_fwd O f _ _ s reality 0 nside)
      (fun j c => pj <- lrd _ (j - J_min + (if j <? J then 0 else -1)) ;; t_wfwd O c pj _ _ s reality nside)
      (fun c => t_inv O c _ L s reality 0 nside) (syn L N J_min J lam true psi phi)
      J_min _ w sc v tc f g Hwv Hst eq_refl _ _ _ _ E1 E2).
    * intros p' q'. now apply L1.
    * intros j f' g' p' q' Hj Hfg. apply In_zrange in Hj. rewrite wk_nth by (auto; lia). cbn [bind].
      now apply (L3 (Lj_of L j lam true) (Nj_of L j N lam true) (L0_of j lam true) x y).
    * intros Ws Vs S T' Hl'. now apply syn_list_lin.
    * intros Ws Vs S T' p' q'. now apply L2.
  - destruct A as (_ & -> & Hns & ->). cbn [fst snd] in *.
    assert (Ei : exists ix, ssht_sampling s = Ok ix /\ ix = match s with MW => 0 | MWSS => 1 | DH => 2 | _ => 3 end).
    { destruct s; try (eexists; split; reflexivity); cbn in E1; discriminate. }
    destruct Ei as (ix & Ei & Eix).
    assert (Hsh' : forall f flm, c_fwd O f (Ls_of L J_min lam true) spin reality ix = Ok flm -> flm_sh (Ls_of L J_min lam true) flm).
    { rewrite Eix. intros f'. sh2 Hsh. }
    pose proof (fun w sc => ssht_synthesis_ok L N J_min J lam HL HN Hl EJ0 ltac:(lia) O w sc spin s reality psi phi ix
      ltac:(lia) Ei Hpsi Hphi (Hsh' _) ltac:(sh3 Hsh)) as SN.
    rewrite SN in *. clear SN. clear Ei. subst ix.
    refine (sy_gen x y (fun _ _ => Ok tt)
      (fun f => c_fwd O (if reality then nd_real f else f) _ spin reality _)
      (fun j c => c_wfwd O c _ _ _ s reality)
      (fun c => c_inv O c L spin reality _) (syn L N J_min J lam true psi phi)
      J_min _ w sc v tc f g Hwv Hst eq_refl _ _ _ _ E1 E2).
    * intros p' q' A B.
      replace (if reality then nd_real (lin_nd x y sc tc) else lin_nd x y sc tc)
        with (lin_nd x y (if reality then nd_real sc else sc) (if reality then nd_real tc else tc)).
      2:{ destruct reality; [|reflexivity]. symmetry. apply real_lin; [apply Hx|apply Hy]; reflexivity. }
      refine (L1 _ x y _ _ _ _ Hx Hy _ A B). destruct reality; [|exact Hst]. exact Hst.
    * intros j f' g' p' q' Hj Hfg. now apply (L3 (Lj_of L j lam true) (Nj_of L j N lam true) (L0_of j lam true) x y).
    * intros Ws Vs S T' Hl'. now apply syn_list_lin.
    * intros Ws Vs S T' p' q'. now apply L2.
Qed.

(*% ** C68: losses are quadratic along every line, and their derivatives *)

Lemma sum_px_ext sh f g : (forall ix, f ix = g ix) -> sum_px sh f = sum_px sh g.
Proof. intros H. unfold sum_px. f_equal. apply map_ext. exact H. Qed.
Lemma sum_px_plus sh f g : sum_px sh (fun ix => f ix + g ix)%R = (sum_px sh f + sum_px sh g)%R.
Proof. unfold sum_px. induction (pixels sh) as [|ix l IH]; cbn [map fold_right]; [ring|]. rewrite IH. ring. Qed.
Lemma sum_px_mul sh c f : sum_px sh (fun ix => c * f ix)%R = (c * sum_px sh f)%R.
Proof. unfold sum_px. induction (pixels sh) as [|ix l IH]; cbn [map fold_right]; [ring|]. rewrite IH. ring. Qed.
Lemma sum_px_nonneg sh f : (forall ix, 0 <= f ix)%R -> (0 <= sum_px sh f)%R.
Proof.
  intros H. unfold sum_px. induction (pixels sh) as [|ix l IH]; cbn [map fold_right]; [lra|]. specialize (H ix). lra.
Qed.

Lemma sq_line t x y d :
  sq_err (lin_nd (RtoC 1) (RtoC t) x d) y = (sq_err x y + t * sq_slope x y d + t ^ 2 * sq_norm x d)%R.
Proof.
  unfold sq_err, sq_slope, sq_norm. rewrite <- !sum_px_mul, <- !sum_px_plus. apply sum_px_ext. intros ix.
  cbn [lin_nd ndat]. unfold Cmod. rewrite !pow2_sqrt by (apply Rplus_le_le_0_compat; apply pow2_ge_0).
  destruct (ndat x ix), (ndat y ix), (ndat d ix). cbn. ring.
Qed.
Lemma list_line t x y d : length d = length x ->
  err_list (lin_list (RtoC 1) (RtoC t) x d) y = (err_list x y + t * slope_list x y d + t ^ 2 * norm_list x y d)%R.
Proof.
  revert y d. induction x as [|p x IH]; intros [|q y] [|r d] H; try discriminate H; cbn; try ring.
  change (map (fun p => lin_nd (RtoC 1) (RtoC t) (fst p) (snd p)) (combine x d)) with (lin_list (RtoC 1) (RtoC t) x d).
  rewrite IH by (simpl in H; lia). pose proof (sq_line t p q r) as E. unfold lin_list in *. cbn in E. rewrite E. ring.
Qed.
Lemma maps_line t x y d : length (fst d) = length (fst x) ->
  maps_err (lin_maps (RtoC 1) (RtoC t) x d) y = (maps_err x y + t * maps_slope x y d + t ^ 2 * maps_norm x y d)%R.
Proof.
  intros H. unfold maps_err, maps_slope, maps_norm, lin_maps. cbn [fst snd]. rewrite list_line, sq_line by assumption. ring.
Qed.
Lemma sq_norm_nonneg x d : (0 <= sq_norm x d)%R.
Proof. apply sum_px_nonneg. intros. apply pow2_ge_0. Qed.
Lemma maps_norm_nonneg x y d : (0 <= maps_norm x y d)%R.
Proof.
  unfold maps_norm. apply Rplus_le_le_0_compat; [|apply sq_norm_nonneg]. generalize (fst x), (fst y), (fst d).
  induction l as [|p l IH]; intros [|q y'] [|r d']; cbn; try lra. specialize (IH y' d'). pose proof (sq_norm_nonneg p r). lra.
Qed.

Lemma scalar_R reality t : scalar reality (RtoC t). Proof. intros _. reflexivity. Qed.

(** a function that is a quadratic polynomial *)
Lemma quad_derive (F : R -> R) c0 c1 c2 t : (forall t, F t = c0 + t * c1 + t ^ 2 * c2)%R -> is_derive F t (c1 + 2 * t * c2)%R.
Proof.
  intros H. apply (is_derive_ext (fun t => c0 + t * c1 + t ^ 2 * c2)%R); [intros; symmetry; apply H|].
  auto_derive; [exact I|]. ring.
Qed.
Lemma quad_central (F : R -> R) c0 c1 c2 h : (forall t, F t = c0 + t * c1 + t ^ 2 * c2)%R -> (h <> 0)%R ->
  ((F h - F (- h)) / (2 * h) = c1)%R.
Proof. intros H Hh. rewrite !H. field. exact Hh. Qed.

(*% [x] and [d] are the argument of the transform and a direction, [g] and [h] their transforms, [y] the target *)
(*@ C68_synthesis_loss *)
Lemma sy_loss : forall b O L N lam J_min J spin spin0 s nside reality mr psi phi T x d y g h,
  1 <= L -> 1 <= N <= L -> (1 < lam)%R -> j_max L lam = Ok J ->
  fwd_shapes_b (lib_of b O) spin s nside reality -> linear_b (lib_of b O) spin s nside reality ->
  synthesiser b O L N J_min lam spin spin0 s nside reality mr psi phi T ->
  maps_shape x = maps_shape d -> T x = Ok g -> T d = Ok h ->
  (forall t : R, exists k, T (lin_maps (RtoC 1) (RtoC t) x d) = Ok k /\
     sq_err k y = (sq_err g y + t * sq_slope g y h + t ^ 2 * sq_norm g h)%R) /\ (0 <= sq_norm g h)%R.
Proof.
  intros b O L N lam J_min J spin spin0 s nside reality mr psi phi T x d y g h HL HN Hl EJ Hsh HLin A Hxd Ex Ed.
  split; [|apply sq_norm_nonneg]. intros t. eexists. split; [|apply sq_line].
  apply (every_sy_lin b O L N lam J_min J spin spin0 s nside reality mr psi phi T); auto using scalar_R.
Qed.
(*@ C68_synthesis_gradient *)
Lemma sy_grad : forall b O L N lam J_min J spin spin0 s nside reality mr psi phi T x d y g h,
  1 <= L -> 1 <= N <= L -> (1 < lam)%R -> j_max L lam = Ok J ->
  fwd_shapes_b (lib_of b O) spin s nside reality -> linear_b (lib_of b O) spin s nside reality ->
  synthesiser b O L N J_min lam spin spin0 s nside reality mr psi phi T ->
  maps_shape x = maps_shape d -> T x = Ok g -> T d = Ok h ->
  let F t := loss (fun k => sq_err k y) (T (lin_maps (RtoC 1) (RtoC t) x d)) in
  is_derive F 0%R (sq_slope g y h) /\
  (forall e, e <> 0 -> (F e - F (- e)) / (2 * e) = sq_slope g y h)%R.
Proof.
  intros b O L N lam J_min J spin spin0 s nside reality mr psi phi T x d y g h HL HN Hl EJ Hsh HLin A Hxd Ex Ed F.
  assert (Q : forall t, (F t = sq_err g y + t * sq_slope g y h + t ^ 2 * sq_norm g h)%R).
  { intros t. destruct (sy_loss b O L N lam J_min J spin spin0 s nside reality mr psi phi T x d y g h HL HN Hl EJ Hsh HLin A Hxd Ex Ed)
      as (H & _). destruct (H t) as (k & Ek & E). unfold F. rewrite Ek. exact E. }
  split; [|intros e He; now apply (quad_central F _ _ _ e Q)].
  replace (sq_slope g y h) with (sq_slope g y h + 2 * 0 * sq_norm g h)%R by ring. exact (quad_derive F _ _ _ 0%R Q).
Qed.

(*@ C68_analysis_loss *)
Lemma an_loss : forall b O L N lam J_min J spin spin0 s nside reality mr psi phi T f d y g h,
  1 <= L -> 1 <= N <= L -> (1 < lam)%R -> j_max L lam = Ok J -> sampling_known s nside ->
  fwd_shapes_b (lib_of b O) spin s nside reality -> linear_b (lib_of b O) spin s nside reality ->
  analyser b O L N J_min lam spin spin0 s nside reality mr psi phi T ->
  nshape f = nshape d -> T f = Ok g -> T d = Ok h ->
  (forall t : R, exists k, T (lin_nd (RtoC 1) (RtoC t) f d) = Ok k /\
     maps_err k y = (maps_err g y + t * maps_slope g y h + t ^ 2 * maps_norm g y h)%R) /\ (0 <= maps_norm g y h)%R.
Proof.
  intros b O L N lam J_min J spin spin0 s nside reality mr psi phi T f d y g h HL HN Hl EJ Hs Hsh HLin A Hfd Ef Ed.
  split; [|apply maps_norm_nonneg]. intros t.
  destruct (every_an_lin2 b O L N lam J_min J spin spin0 s nside reality mr psi phi T HL HN Hl EJ Hs Hsh HLin A (RtoC 1) (RtoC t) f d g h)
    as (E & Hn); auto using scalar_R.
  eexists. split; [exact E|]. apply maps_line. now symmetry.
Qed.
(*@ C68_analysis_gradient *)
Lemma an_grad : forall b O L N lam J_min J spin spin0 s nside reality mr psi phi T f d y g h,
  1 <= L -> 1 <= N <= L -> (1 < lam)%R -> j_max L lam = Ok J -> sampling_known s nside ->
  fwd_shapes_b (lib_of b O) spin s nside reality -> linear_b (lib_of b O) spin s nside reality ->
  analyser b O L N J_min lam spin spin0 s nside reality mr psi phi T ->
  nshape f = nshape d -> T f = Ok g -> T d = Ok h ->
  let F t := loss (fun k => maps_err k y) (T (lin_nd (RtoC 1) (RtoC t) f d)) in
  is_derive F 0%R (maps_slope g y h) /\
  (forall e, e <> 0 -> (F e - F (- e)) / (2 * e) = maps_slope g y h)%R.
Proof.
  intros b O L N lam J_min J spin spin0 s nside reality mr psi phi T f d y g h HL HN Hl EJ Hs Hsh HLin A Hfd Ef Ed F.
  assert (Q : forall t, (F t = maps_err g y + t * maps_slope g y h + t ^ 2 * maps_norm g y h)%R).
  { intros t. destruct (an_loss b O L N lam J_min J spin spin0 s nside reality mr psi phi T f d y g h HL HN Hl EJ Hs Hsh HLin A Hfd Ef Ed)
      as (H & _). destruct (H t) as (k & Ek & E). unfold F. rewrite Ek. exact E. }
  split; [|intros e He; now apply (quad_central F _ _ _ e Q)].
  replace (maps_slope g y h) with (maps_slope g y h + 2 * 0 * maps_norm g y h)%R by ring. exact (quad_derive F _ _ _ 0%R Q).
Qed.

Lemma demo_lib_linear b spin nside reality : linear_b (lib_of b demo) spin MW nside reality /\ fwd_shapes_b (lib_of b demo) spin MW nside reality.
Proof.
  pose proof (demo_linear spin MW nside reality) as H. pose proof (demo_fwd_shapes spin MW nside reality) as H'.
  destruct H as (A1 & A2 & A3 & A4). destruct H' as (B1 & B2).
  destruct b; (split; [split; [exact A1|]; split; [exact A2|]; split; intros L N L0|split; [exact B1|intros f L N L0]]);
    first [apply (A3 L N L0)|apply (A3 L N 0)|apply (A4 L N L0)|apply (A4 L N 0)|apply (B2 f L N L0)|apply (B2 f L N 0)].
Qed.

(*% with every implementation: the demo library is linear, and both transforms accept the field of demo coefficients
    and its analysis *)
(*@E C68_example *)
Lemma ex_c68 : forall b, exists psi phi T U f w sc g,
  linear_b (lib_of b demo) 0 MW None true /\ fwd_shapes_b (lib_of b demo) 0 MW None true /\ sampling_known MW None /\
  analyser b demo 5 3 0 2 0 0 MW None true true psi phi T /\ synthesiser b demo 5 3 0 2 0 0 MW None true true psi phi U /\
  b_inv (lib_of b demo) (demo_flm 5) 5 0 MW None true = Ok f /\ T f = Ok (w, sc) /\ U (w, sc) = Ok g /\
  b_fwd (lib_of b demo) g 5 0 MW None true = Ok (demo_flm 5).
Proof.
  intros b. destruct (ex_c54 b) as (psi & phi & f & w & sc & W & S & g & _ & _ & E & _ & _ & Ef & _ & A & _ & R & Eg & _).
  destruct (demo_lib_linear b 0 None true) as (H1 & H2).
  assert (HA : exists T, analyser b demo 5 3 0 2 0 0 MW None true true psi phi T /\ T f = Ok (w, sc)).
  { destruct b.
    - destruct A as [(A1 & A2)|(A1 & A2)]; [exists (fun f => analysis demo f 5 3 0 2 0 0 MW None true true false)
        |exists (fun f => analysis_looped demo f 5 3 0 2 0 0 MW None true true)]; (split; [|exact A2]); [left|right]; auto.
    - destruct A as (A1 & A2 & p & q & A3 & A4 & A5).
      exists (fun f => jax_analysis demo f 5 3 0 2 0 MW None true (Some (psi, phi)) p). split; [|exact A5]. split; [exact A1|]. split; [exact A2|].
      exists p, q. auto.
    - destruct A as (A1 & A2 & A3 & p & A4 & A5).
      exists (fun f => pre_analysis demo f 5 3 0 2 0 MW None true (Some (psi, phi)) (Some p)). split; [|exact A5]. split; [exact A1|]. split; [exact A2|].
      split; [exact A3|]. exists p. auto.
    - destruct A as (A1 & A2 & A3 & p & A4 & A5).
      exists (fun f => x <- torch_analysis demo f 5 3 0 2 0 MW None true (Some (psi, phi)) (Some p) ;;
                       w <- mapM need (fst x) ;; Ok (w, snd x)).
      split; [split; [exact A1|]; split; [exact A2|]; split; [exact A3|]; exists p; auto|].
      rewrite A5. cbn [bind fst snd]. replace (mapM need (map Some w)) with (Ok w); [reflexivity|]. symmetry.
      clear. induction w as [|c ws IH]; [reflexivity|]. cbn [map mapM need bind]. now rewrite IH.
    - destruct A as (A1 & A2 & A3 & A4). exists (fun f => ssht_analysis demo f 5 3 0 2 0 MW true (Some (psi, phi))). split; [|exact A4]. repeat (split; auto). }
  destruct HA as (T & HA & ET).
  assert (HR : exists U, synthesiser b demo 5 3 0 2 0 0 MW None true true psi phi U /\ U (w, sc) = Ok g).
  { destruct b.
    - destruct R as [(A1 & A2)|(A1 & _ & A2)]; [exists (fun x => synthesis demo (fst x) (snd x) 5 3 0 2 0 0 MW None true true)
        |exists (fun x => synthesis_looped demo (fst x) (snd x) 5 3 0 2 0 0 MW None true true)]; (split; [|exact A2]); [left|right]; auto.
    - destruct R as (A1 & A2 & p & q & A3 & A4 & A5).
      exists (fun x => jax_synthesis demo (fst x) (snd x) 5 3 0 2 0 MW None true (Some (psi, phi)) p).
      split; [|exact A5]. split; [exact A1|]. split; [exact A2|]. exists p, q. auto.
    - destruct R as (A1 & A2 & A3 & p & A4 & A5).
      exists (fun x => pre_synthesis demo (fst x) (snd x) 5 3 0 2 0 MW None true (Some (psi, phi)) (Some p)).
      split; [|exact A5]. split; [exact A1|]. split; [exact A2|]. split; [exact A3|]. exists p. auto.
    - destruct R as (A1 & A2 & A3 & p & A4 & A5).
      exists (fun x => torch_synthesis demo (fst x) (snd x) 5 3 0 2 0 MW None true (Some (psi, phi)) (Some p)).
      split; [|exact A5]. split; [exact A1|]. split; [exact A2|]. split; [exact A3|]. exists p. auto.
    - destruct R as (A1 & A2 & A3 & _ & A4). exists (fun x => ssht_synthesis demo (fst x) (snd x) 5 3 0 2 0 MW true (Some (psi, phi))).
      split; [|exact A4]. repeat (split; auto). }
  destruct HR as (U & HU & EU).
  exists psi, phi, T, U, f, w, sc, g. repeat (split; [first [exact H1|exact H2|exact I|exact HA|exact HU|exact Ef|exact ET|exact EU]|]).
  exact Eg.
Qed.
