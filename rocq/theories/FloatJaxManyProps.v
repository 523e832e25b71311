(** Statements and proofs for PropertiesFloatJaxMany.v *)

From Coq Require Import ZArith Reals List Bool Lia Lra Psatz.
From Coquelicot Require Import Rcomplements Complex.
From Flocq Require Import Core Relative IEEE754.BinarySingleNaN.
From Verif Require Import Py PyFacts ModelSamples SamplesFacts ModelFilters FiltersFacts DirectionFacts DirFilterFacts Spec SpecQuad FiltersProps.
From Verif Require Import ModelFloat ModelFloatDir ModelFloatJaxFilt FloatProps SpecFp SpecFpDir SpecFpMany FloatFilterProps FloatDefault FloatAccProps FloatDirFacts FloatDirProps
  FloatDirFilterProps FloatManyProps FloatJaxFiltProps FloatJaxProps SamplesProps.
From Verif Require Import FloatFacts.
Import ListNotations.
Open Scope Z_scope.

(*T The JAX directional filters in binary64 *)
(*! From Coq Require Import ZArith Reals List Bool. *)
(*! From Coquelicot Require Import Complex. *)
(*! From Flocq Require Import Core IEEE754.BinarySingleNaN. *)
(*! Import ListNotations. *)
(*! From Verif Require Import Py ModelSamples ModelFilters ModelFloat ModelFloatDir ModelFloatJaxFilt Spec SpecQuad SpecFp SpecFpDir SpecFpMany. *)

Lemma int64_float L N : int64_powers L N -> float_powers L N.
Proof. intros [H|[H|[H _]]]; unfold float_powers; lia. Qed.
Lemma int64_900 L N : int64_powers L N -> N <= 900 \/ L <= 900.
Proof. unfold int64_powers. lia. Qed.
Lemma tiling_jax_many jlg jexp L N : accurate_loggamma_to 1023 jlg -> relative_exp_to (7093 / 10) jexp -> 1 <= L -> 1 <= N -> int64_powers L N ->
  tiling_direction_jax_fp jlg jexp L N = Ok (sf_arr jlg jexp L N).
Proof.
  intros Hg He HL HN H6. apply tiling_jax_gen; auto. intros el m Hel Hm Hd.
  pose proof (gam_1023 L N el (int64_float L N H6) ltac:(lia) ltac:(lia)) as HG.
  destruct (rdir_many jlg jexp Hg He N el m HN HG ltac:(lia) Hm Hd) as [F (A & B & _)].
  pose proof (sdsq_lb N el m 512 HN ltac:(lia) ltac:(lia) Hm Hd) as [SL _].
  assert (NZ : (0 < B2R (rdir jlg jexp N el m))%R). { apply Rlt_le_trans with (2 := B). apply Rmult_lt_0_compat; [apply Rlt_le_trans with (2 := SL), bpow_gt_0|apply exp_pos]. }
  destruct (rdir jlg jexp N el m); try discriminate F; try reflexivity. cbn in NZ. lra.
Qed.
Lemma tiling_jax_eq jlg jexp L N : accurate_loggamma_to 1023 jlg -> relative_exp_to (7093 / 10) jexp -> 1 <= L -> 1 <= N -> int64_powers L N ->
  tiling_direction_jax_fp jlg jexp L N = tiling_direction_fp jlg jexp L N.
Proof. intros. rewrite tiling_jax_many, tiling_fp_ok by auto using int64_float. reflexivity. Qed.
Lemma int64_dec L N : int64_powers L N \/ ~ int64_powers L N.
Proof.
  unfold int64_powers. destruct (Z_lt_dec N 64); [left; lia|]. destruct (Z_lt_dec L 64); [left; lia|].
  destruct (Z.eq_dec L 64) as [-> |]; [|right; lia]. destruct (Z.Even_or_Odd N) as [E|E].
  - right. intros [H|[H|[_ [k H]]]]; try lia. destruct E as [k' E]. lia.
  - left. right. right. auto.
Qed.
Lemma tiling_jax_fits jlg jexp L N s : 1 <= L -> tiling_direction_jax_fp jlg jexp L N = Ok s -> int64_powers L N.
Proof. intros HL E. destruct (int64_dec L N) as [H|H]; [exact H|]. rewrite tiling_jax_fp_overflow in E by assumption. discriminate. Qed.

(*% ** C88: the JAX directional filters in binary64, whenever they are returned *)

(*% the component: with the same libraries JAX and numpy compute the same bits *)
(*@ C88_component_bits *)
Lemma jax_component_bits : forall jlg jexp L N s, accurate_loggamma_to 1023 jlg -> relative_exp_to (7093 / 10) jexp -> 1 <= L -> 1 <= N ->
  tiling_direction_jax_fp jlg jexp L N = Ok s -> tiling_direction_fp jlg jexp L N = Ok s.
Proof. intros jlg jexp L N s Hg He HL HN E. rewrite <- tiling_jax_eq; auto. now apply (tiling_jax_fits jlg jexp L N s). Qed.

(*% it is returned exactly if the powers of two fit into an int64, and then it has a relative error of at most 2^-30 *)
(*@ C88_component *)
Lemma jax_component : forall jlg jexp L N, accurate_loggamma_to 1023 jlg -> relative_exp_to (7093 / 10) jexp -> 1 <= L -> 1 <= N ->
  ((exists s, tiling_direction_jax_fp jlg jexp L N = Ok s) <-> int64_powers L N) /\
  forall sf, tiling_direction_jax_fp jlg jexp L N = Ok sf ->
  exists s, tiling_direction L N = Ok s /\ shape2 sf = shape2 s /\
    forall l m, 0 <= l < L -> Z.abs m < L -> let z := get2 sf l (L - 1 + m) in let t := get2 s l (L - 1 + m) in
      is_finite (fst z) = true /\ is_finite (snd z) = true /\ (Cmod (cval z - t)%C <= bpow radix2 (-30) * Cmod t)%R.
Proof.
  intros jlg jexp L N Hg He HL HN. split.
  - split; [intros (s & E); now apply (tiling_jax_fits jlg jexp L N s)|]. intros H. eexists. now apply tiling_jax_many.
  - intros sf E. pose proof (tiling_jax_fits _ _ _ _ _ HL E) as H. apply jax_component_bits in E; auto.
    destruct (fp_dir_many jlg jexp L N Hg He HL HN (int64_float L N H)) as (sf' & s & E' & ES & SH & A). exists s.
    rewrite E in E'. apply Ok_inj in E'. subst sf'. auto.
Qed.

(*@ C88_component_normalised *)
Lemma jax_component_norm : forall jlg jexp L N s, accurate_loggamma_to 1023 jlg -> relative_exp_to (7093 / 10) jexp -> 1 <= L -> 1 <= N ->
  tiling_direction_jax_fp jlg jexp L N = Ok s ->
  forall l, 1 <= l < L -> (Rabs (sumZ (- l) (l + 1) (fun m => Cmod (cval (get2 s l (L - 1 + m))) ^ 2) - 1) <= bpow radix2 (-29))%R.
Proof. intros jlg jexp L N s Hg He HL HN E. apply (fp_dir_many_norm jlg jexp L N s); auto. now apply jax_component_bits. Qed.

(** *** the filters *)
Lemma dir_jax_fp_ok fexp fpow jlg jexp J L N J_min lam spin psi phi : accurate_loggamma_to 1023 jlg -> relative_exp_to (7093 / 10) jexp -> 1 <= L -> 1 <= N -> int64_powers L N -> 0 <= J ->
  filters_axisym_jax_fp fexp fpow J L J_min lam = Ok (psi, phi) -> rows psi = J + 1 -> cols psi = L -> len1 phi = L ->
  filters_directional_jax_fp fexp fpow jlg jexp J L N J_min lam spin 0 =
  Ok (mk3 (J + 1) L (2 * L - 1) (fun j l q => psiv jexp jlg N spin psi j l (q - (L - 1))), mk1 L (phiv spin phi)).
Proof.
  intros Hg He HL HN H6 HJ EA Rp Cp Lp. unfold filters_directional_jax_fp. change (negb (0 =? 0)) with false. cbv iota.
  rewrite EA. cbn [bind]. rewrite tiling_jax_many by assumption. cbn [bind]. fold (el_min spin 0).
  assert (H0 : 0 <= el_min spin 0) by (unfold el_min; lia).
  unfold sf_arr, fill1, fill3. rewrite Lp, Cp, Rp, !bdim_refl. cbn [bind]. cbn [len1 rows cols dim0 dim1 dim2 mk1 mk2 mk3].
  rewrite !bdim_refl. cbn [bind]. cbn [len1 rows cols dim0 dim1 dim2 mk1 mk2 mk3].
  do 2 f_equal.
  - apply mk3_ext. intros j l q Hj Hl Hq.
    rewrite !mem_full, mem_upto, get3_mk, !bi_in by lia. rewrite !get2_mk, !bi_in by lia.
    cbn [andb]. rewrite andb_true_r. unfold psiv.
    destruct (Z.ltb_spec l (el_min spin 0)), (Z.leb_spec (el_min spin 0) l); try lia; reflexivity.
  - apply mk1_ext. intros l Hl. rewrite mem_upto, get1_mk, !bi_in by lia. unfold phiv.
    destruct (Z.ltb_spec l (el_min spin 0)), (Z.leb_spec (el_min spin 0) l); try lia; reflexivity.
Qed.
Lemma jax_near fexp fpow jlg jexp J L N J_min lam spin psi phi :
  accurate_loggamma_to 1023 jlg -> relative_exp_to (7093 / 10) jexp -> 1 <= L <= 2 ^ 52 -> 1 <= N ->
  filters_directional_jax_fp fexp fpow jlg jexp J L N J_min lam spin 0 = Ok (psi, phi) ->
  exists kpsi kphi, filters_axisym_jax_fp fexp fpow J L J_min lam = Ok (kpsi, kphi) /\ 0 <= J_min < J /\ near_many L N J J_min (Z.abs spin) psi phi kpsi kphi.
Proof.
  intros Hg He HL HN ED. pose proof ED as ED'. unfold filters_directional_jax_fp in ED'. change (negb (0 =? 0)) with false in ED'. cbv iota in ED'.
  apply bind_inv in ED' as ([kpsi kphi] & EA & ED'). apply bind_inv in ED' as (s & ES & _). pose proof (tiling_jax_fits jlg jexp L N s ltac:(lia) ES) as H6.
  exists kpsi, kphi. split; [exact EA|]. pose proof EA as EV. rewrite axi_jax in EV. destruct (axisym_vec_fp_inv _ _ _ _ _ _ _ _ EV) as (HJ & Rp & Cp & Lp & Tpsi & Tphi).
  split; [exact HJ|]. rewrite (dir_jax_fp_ok fexp fpow jlg jexp J L N J_min lam spin kpsi kphi) in ED; auto; try lia.
  apply Ok_inj in ED. assert (P1 := f_equal fst ED). assert (P2 := f_equal snd ED). cbn [fst snd] in P1, P2. rewrite <- P1, <- P2.
  destruct (near_psiv jlg jexp Hg He J L N spin kpsi kphi HL HN (int64_900 L N H6) ltac:(lia) Tpsi Tphi) as [A B].
  split; [exact A|]. intros j l m Hj. apply B. lia.
Qed.

(*% each coefficient against the exact product of the weight, the computed kernel and the exact component, for every dilation *)
(*@ C88_coefficients *)
Lemma jax_acc_many : forall fexp fpow jlg jexp J L N J_min lam spin kpsi kphi psi phi s,
  accurate_loggamma_to 1023 jlg -> relative_exp_to (7093 / 10) jexp -> 1 <= L <= 2 ^ 52 -> 1 <= N ->
  filters_axisym_jax_fp fexp fpow J L J_min lam = Ok (kpsi, kphi) -> filters_directional_jax_fp fexp fpow jlg jexp J L N J_min lam spin 0 = Ok (psi, phi) ->
  tiling_direction L N = Ok s ->
  forall l, Z.abs spin <= l < L ->
    (is_finite (get1 kphi l) = true -> let w := (sqrt ((2 * IZR l + 1) / (4 * PI)) * B2R (get1 kphi l))%R in
       is_finite (get1 phi l) = true /\ (Rabs (B2R (get1 phi l) - w) <= bpow radix2 (-50) * w)%R) /\
    (forall j m, J_min <= j <= J -> Z.abs m < L -> is_finite (get2 kpsi j l) = true ->
       let w := (sqrt ((2 * IZR l + 1) / (8 * PI ^ 2)) * B2R (get2 kpsi j l))%R in
       let z := get3 psi j l (L - 1 + m) in let t := Cmult (RtoC w) (get2 s l (L - 1 + m)) in
       is_finite (fst z) = true /\ is_finite (snd z) = true /\ (Cmod (Cminus (cval z) t) <= bpow radix2 (-30) * Cmod t)%R).
Proof.
  intros fexp fpow jlg jexp J L N J_min lam spin kpsi kphi psi phi s Hg He HL HN EA ED ES l Hl.
  destruct (jax_near fexp fpow jlg jexp J L N J_min lam spin psi phi Hg He HL HN ED) as (kp & kh & EA' & HJ & NM).
  rewrite EA in EA'. apply Ok_inj in EA'. assert (P1 := f_equal fst EA'). assert (P2 := f_equal snd EA'). cbn [fst snd] in P1, P2. rewrite <- P1, <- P2 in NM.
  apply (acc_near L N J J_min spin psi phi kpsi kphi s l); auto; lia.
Qed.

(*% with lam = 2 the JAX filters are finite and admissible up to the quadrature error and 2^-28 *)
(*@ C88_admissible *)
Lemma jax_adm_many : forall fexp fpow jlg jexp J L N J_min spin psi phi, 1 <= L <= 2 ^ 52 -> 1 <= N ->
  accurate_loggamma_to 1023 jlg -> relative_exp_to (7093 / 10) jexp -> accurate_exp fexp -> exact_powers fpow J -> j_max L 2 = Ok J ->
  filters_directional_jax_fp fexp fpow jlg jexp J L N J_min (fint 2) spin 0 = Ok (psi, phi) ->
  forall l, Z.abs spin <= l < L ->
    (1 - bpow radix2 (-29) <= fp_dir_total L psi phi J_min J l <= 1 + quad_error 2 300 + bpow radix2 (-28))%R /\
    is_finite (get1 phi l) = true /\
    forall j m, J_min <= j <= J -> Z.abs m < L -> is_finite (fst (get3 psi j l (L - 1 + m))) = true /\ is_finite (snd (get3 psi j l (L - 1 + m))) = true.
Proof.
  intros fexp fpow jlg jexp J L N J_min spin psi phi HL HN Hg Hr Hf HP EJ ED l Hl. pose proof quad_err2.
  destruct (jax_near fexp fpow jlg jexp J L N J_min (fint 2) spin psi phi Hg Hr HL HN ED) as (kpsi & kphi & EA & HJ & NM). rewrite axi_jax in EA.
  assert (B28 : bpow radix2 (-28) = (bpow radix2 (-29) + bpow radix2 (-29))%R) by (change (bpow radix2 (-29)) with (/ 536870912)%R; change (bpow radix2 (-28)) with (/ 268435456)%R; lra).
  destruct (fin2 fexp fpow J L J_min kpsi kphi ltac:(lia) Hf HP EJ (or_intror EA)) as (_ & F0 & F1 & Z0).
  pose proof (fp2_adm fexp fpow J L J_min kpsi kphi ltac:(lia) Hf HP EJ EA l ltac:(lia)) as T. split.
  - assert (A : apx (2 * ue) (fp_dir_total L psi phi J_min J l) (fp_total kpsi kphi J_min J l)).
    { apply (total_near L N J J_min spin psi phi kpsi kphi l); auto; try lia; [apply F0; lia|intros; apply F1; lia|].
      destruct (Z.eq_dec l 0) as [-> |]; [right; exact Z0|left; lia]. }
    rewrite B28, <- Rplus_assoc, (Rplus_assoc 1). rewrite (Rplus_assoc 1) in T. apply (widen_many _ (fp_dir_total L psi phi J_min J l) (quad_error 2 300 + bpow radix2 (-29)) (bpow radix2 (-29)) A).
    + change (bpow radix2 (-34)) with (/ 17179869184)%R in T. change (bpow radix2 (-29)) with (/ 536870912)%R. lra.
    + change (bpow radix2 (-29)) with (/ 536870912)%R. lra.
    + lra.
  - destruct NM as [NA NB]. split; [apply (NA l Hl (F0 l ltac:(lia)))|].
    intros j m Hj Hm. destruct (NB j l m Hj Hl Hm (F1 j l Hj ltac:(lia))) as (A & B & _). split; [exact A|exact B].
Qed.

(*% with different libraries the JAX and the numpy coefficients of returned filters are within a relative 2^-28 of each other *)
(*@ C88_agreement *)
Lemma jax_numpy_many : forall fexp fpow flg jlg jexp J L N J_min spin psi phi psi' phi', 1 <= L <= 2 ^ 52 -> 1 <= N ->
  accurate_loggamma_to 1023 flg -> relative_exp_to (7093 / 10) fexp -> accurate_loggamma_to 1023 jlg -> relative_exp_to (7093 / 10) jexp ->
  accurate_exp fexp -> exact_powers fpow J -> j_max L 2 = Ok J ->
  filters_directional_jax_fp fexp fpow jlg jexp J L N J_min (fint 2) spin 0 = Ok (psi, phi) ->
  filters_directional_vectorised_fp fexp fpow flg J L N J_min (fint 2) spin 0 = Ok (psi', phi') ->
  forall l, Z.abs spin <= l < L -> get1 phi l = get1 phi' l /\
    forall j m, J_min <= j <= J -> Z.abs m < L ->
      (Cmod (Cminus (cval (get3 psi j l (L - 1 + m))) (cval (get3 psi' j l (L - 1 + m)))) <= bpow radix2 (-28) * Cmod (cval (get3 psi' j l (L - 1 + m))))%R.
Proof.
  intros fexp fpow flg jlg jexp J L N J_min spin psi phi psi' phi' HL HN Hg He Hg' He' Hf HP EJ EX EV l Hl.
  destruct (jax_near fexp fpow jlg jexp J L N J_min (fint 2) spin psi phi Hg' He' HL HN EX) as (kpsi & kphi & EA & HJ & _).
  pose proof EX as EX'. unfold filters_directional_jax_fp in EX'. change (negb (0 =? 0)) with false in EX'. cbv iota in EX'.
  apply bind_inv in EX' as (z & _ & EX'). destruct z as [z1 z2]. apply bind_inv in EX' as (s & ES & _). pose proof (tiling_jax_fits jlg jexp L N s ltac:(lia) ES) as H6. clear s ES z1 z2.
  assert (ED : exists s, tiling_direction L N = Ok s) by (unfold tiling_direction; rewrite tiling_direction_with_ok by (try apply loggamma_ok; lia); eauto). destruct ED as (s & ED).
  pose proof (jax_acc_many fexp fpow jlg jexp J L N J_min (fint 2) spin kpsi kphi psi phi s Hg' He' HL HN EA EX ED l Hl) as (_ & A).
  pose proof EA as EW. rewrite axi_jax in EW.
  pose proof (fp_dirf_acc_many fexp fpow flg J L N J_min (fint 2) spin kpsi kphi psi' phi' s Hg He HL HN (int64_900 L N H6) (or_intror (conj EW EV)) ED l Hl) as (_ & B).
  destruct (fin2 fexp fpow J L J_min kpsi kphi ltac:(lia) Hf HP EJ (or_intror EW)) as (_ & F0 & F1 & _).
  destruct (axisym_vec_fp_inv _ _ _ _ _ _ _ _ EW) as (_ & Rp & Cp & Lp & _ & _). split.
  - rewrite (dir_jax_fp_ok fexp fpow jlg jexp J L N J_min (fint 2) spin kpsi kphi) in EX; auto; try lia.
    rewrite (dir_vec_fp_ok fexp fpow flg J L N J_min (fint 2) spin kpsi kphi) in EV; auto using int64_float; try lia.
    apply Ok_inj in EX, EV. assert (P1 := f_equal snd EX). assert (P2 := f_equal snd EV). cbn [snd] in P1, P2. rewrite <- P1, <- P2. reflexivity.
  - intros j m Hj Hm. destruct (A j m Hj Hm (F1 j l Hj ltac:(lia))) as (_ & _ & A'). destruct (B j m Hj Hm (F1 j l Hj ltac:(lia))) as (_ & _ & B').
    set (x := cval (get3 psi j l (L - 1 + m))) in *. set (y := cval (get3 psi' j l (L - 1 + m))) in *.
    set (t := Cmult _ (get2 s l (L - 1 + m))) in *.
    change (bpow radix2 (-30)) with (/ 1073741824)%R in *. change (bpow radix2 (-28)) with (/ 268435456)%R.
    assert (T : (Cmod t <= Cmod y + Cmod (Cminus y t))%R).
    { rewrite <- (Cmod_opp (Cminus y t)). replace t with (Cplus y (Copp (Cminus y t))) at 1 by ring. apply Cmod_triangle. }
    assert (D : (Cmod (Cminus x y) <= Cmod (Cminus x t) + Cmod (Cminus y t))%R).
    { rewrite <- (Cmod_opp (Cminus y t)). replace (Cminus x y) with (Cplus (Cminus x t) (Copp (Cminus y t))) by ring. apply Cmod_triangle. }
    pose proof (Cmod_ge_0 y). pose proof (Cmod_ge_0 t). lra.
Qed.

(*% they are returned exactly if the axisymmetric filters are and the powers of two fit into an int64 *)
(*@ C88_returned *)
Lemma jax_returned : forall fexp fpow jlg jexp J L N J_min lam spin, accurate_loggamma_to 1023 jlg -> relative_exp_to (7093 / 10) jexp -> 1 <= L -> 1 <= N ->
  ((exists r, filters_directional_jax_fp fexp fpow jlg jexp J L N J_min lam spin 0 = Ok r) <->
   (exists k, filters_axisym_jax_fp fexp fpow J L J_min lam = Ok k) /\ int64_powers L N).
Proof.
  intros fexp fpow jlg jexp J L N J_min lam spin Hg He HL HN. split.
  - intros (r & E). unfold filters_directional_jax_fp in E. change (negb (0 =? 0)) with false in E. cbv iota in E.
    apply bind_inv in E as (k & EA & E). split; [eauto|]. destruct k as [k1 k2]. apply bind_inv in E as (s & ES & _). now apply (tiling_jax_fits jlg jexp L N s).
  - intros (([kpsi kphi] & EA) & H6). pose proof EA as EV. rewrite axi_jax in EV. destruct (axisym_vec_fp_inv _ _ _ _ _ _ _ _ EV) as (HJ & Rp & Cp & Lp & _).
    eexists. apply (dir_jax_fp_ok fexp fpow jlg jexp J L N J_min lam spin kpsi kphi); auto; lia.
Qed.

Lemma vec_axi fexp fpow flg J L N J_min lam spin r : filters_directional_vectorised_fp fexp fpow flg J L N J_min lam spin 0 = Ok r ->
  exists k, filters_axisym_vectorised_fp fexp fpow J L J_min lam = Ok k.
Proof.
  intros E. unfold filters_directional_vectorised_fp in E. change (negb (0 =? 0)) with false in E. cbv iota in E. apply bind_inv in E as (k & EA & _). exists k. exact EA.
Qed.
(*% lam = 2, L = 5, N = 100, spin 1: the JAX and the numpy filters are returned, admissible, and agree *)
(*@E C88_example *)
Lemma ex_jax_many : exists fexp fpow lg psi phi psi' phi', accurate_loggamma_to 1023 lg /\ relative_exp_to (7093 / 10) fexp /\ accurate_exp fexp /\ exact_powers fpow 3 /\ j_max 5 2 = Ok 3 /\
  filters_directional_jax_fp fexp fpow lg fexp 3 5 100 0 (fint 2) 1 0 = Ok (psi, phi) /\
  filters_directional_vectorised_fp fexp fpow lg 3 5 100 0 (fint 2) 1 0 = Ok (psi', phi') /\
  (999 / 1000 <= fp_dir_total 5 psi phi 0 3 2 <= 1 + 1 / 100)%R /\ get1 phi 2 = get1 phi' 2.
Proof.
  destruct j_max_5_2 as (EJ & _). pose proof (pow2_exact_powers 3 ltac:(lia)) as HP.
  destruct (fp2_dirf_total near_exp pow2 near_lg 3 5 100 0 1 0 ltac:(lia) ltac:(left; lia) ltac:(lia) HP) as [_ ([psi' phi'] & E2)].
  assert (H6 : int64_powers 5 100) by (right; left; lia).
  assert (E1 : exists r, filters_directional_jax_fp near_exp pow2 near_lg near_exp 3 5 100 0 (fint 2) 1 0 = Ok r).
  { refine (proj2 (jax_returned near_exp pow2 near_lg near_exp 3 5 100 0 (fint 2) 1 near_loggamma_many near_relative_many ltac:(lia) ltac:(lia)) (conj _ H6)).
    destruct (vec_axi _ _ _ _ _ _ _ _ _ _ E2) as (k & EA). exists k. rewrite axi_jax. exact EA. }
  destruct E1 as ([psi phi] & E1).
  destruct (jax_adm_many near_exp pow2 near_lg near_exp 3 5 100 0 1 psi phi ltac:(lia) ltac:(lia) near_loggamma_many near_relative_many near_accurate HP EJ E1 2 ltac:(lia)) as [T _].
  destruct (jax_numpy_many near_exp pow2 near_lg near_lg near_exp 3 5 100 0 1 psi phi psi' phi' ltac:(lia) ltac:(lia) near_loggamma_many near_relative_many near_loggamma_many near_relative_many near_accurate HP EJ E1 E2 2 ltac:(lia)) as [Q _].
  exists near_exp, pow2, near_lg, psi, phi, psi', phi'. split; [apply near_loggamma_many|]. split; [apply near_relative_many|]. split; [apply near_accurate|].
  split; [exact HP|]. split; [exact EJ|]. split; [exact E1|]. split; [exact E2|]. split; [|exact Q].
  pose proof quad_err2. change (bpow radix2 (-29)) with (/ 536870912)%R in T. change (bpow radix2 (-28)) with (/ 268435456)%R in T. lra.
Qed.
