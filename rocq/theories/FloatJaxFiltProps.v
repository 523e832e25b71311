(** Statements and proofs for PropertiesFloatJaxFilt.v *)

From Coq Require Import ZArith Reals List Bool Permutation Lia Lra Psatz FunctionalExtensionality.
From Coquelicot Require Import Rcomplements Complex.
From Flocq Require Import Core Relative IEEE754.BinarySingleNaN.
From Verif Require Import Py PyFacts ModelSamples SamplesFacts ModelFilters ModelTransforms FiltersFacts AxisymFacts DirectionFacts DirFilterFacts
  Spec SpecTransforms SpecQuad FiltersProps.
From Verif Require Import ModelFloat ModelFloatDir ModelFloatTrans ModelFloatJax ModelFloatJaxFilt FloatProps SpecFp SpecFpDir SpecFpTrans SpecFpJax FloatFilterProps FloatDefault FloatAccProps FloatDirFacts FloatDirProps
  FloatDirFilterProps FloatTransProps FloatJaxProps SamplesProps.
From Verif Require Import FloatFacts.
Import ListNotations.
Open Scope Z_scope.

(*T The JAX filters in binary64 *)
(*! From Coq Require Import ZArith Reals List Bool. *)
(*! From Coquelicot Require Import Complex. *)
(*! From Flocq Require Import Core IEEE754.BinarySingleNaN. *)
(*! Import ListNotations. *)
(*! From Verif Require Import Py ModelSamples ModelFilters ModelTransforms ModelFloat ModelFloatDir ModelFloatTrans ModelFloatJax ModelFloatJaxFilt Spec SpecTransforms SpecQuad SpecFp SpecFpDir SpecFpTrans SpecFpJax. *)

Lemma bind_if {A B} (b : bool) (x y : res A) (f : A -> res B) : bind (if b then x else y) f = if b then bind x f else bind y f.
Proof. now destruct b. Qed.
Lemma bind_bind {A B C} (x : res A) (f : A -> res B) (g : B -> res C) : bind (bind x f) g = bind x (fun a => bind (f a) g).
Proof. now destruct x. Qed.
Lemma bind_ext {A B} (x : res A) (f g : A -> res B) : (forall a, f a = g a) -> bind x f = bind x g.
Proof. intros H. destruct x; cbn; auto. Qed.

Lemma k_jax fexp fpow J L lam n : k_lam_jax_fp fexp fpow J L lam n = k_lam_fp fexp fpow J L lam n.
Proof.
  unfold k_lam_jax_fp, k_lam_fp. apply bind_ext. intros il. apply bind_ext. intros c. apply bind_ext. intros k.
  f_equal. extensionality j. extensionality k'. f_equal. extensionality l. extensionality k''.
  unfold k_entry_fp. rewrite !bind_if. cbn [bind]. destruct (flt _ _); [reflexivity|]. destruct (flt _ _); [reflexivity|].
  rewrite bind_bind. apply bind_ext. intros a. rewrite bind_bind. apply bind_ext. reflexivity.
Qed.

(*% ** C78: the JAX filters in binary64 are those of numpy, bit for bit *)

(*@ C78_axisymmetric_filters *)
Lemma axi_jax : forall fexp fpow J L J_min lam,
  filters_axisym_jax_fp fexp fpow J L J_min lam = filters_axisym_vectorised_fp fexp fpow J L J_min lam.
Proof.
  intros fexp fpow J L J_min lam. unfold filters_axisym_jax_fp, filters_axisym_vectorised_fp. destruct ((J <=? J_min) || (J_min <? 0)) eqn:E; [reflexivity|].
  rewrite k_jax. destruct (k_lam_fp fexp fpow J L lam 300) as [k|] eqn:Hk; [|reflexivity]. cbn [bind].
  destruct (k_lam_fp_inv _ _ _ _ _ _ _ Hk) as (il & c & _ & _ & HJ2 & HL & Rk & Ck & _).
  apply orb_false_iff in E as [E1 E2]. apply Z.leb_gt in E1. apply Z.ltb_ge in E2.
  rewrite zeros2_ok by lia. cbn [bind]. set (d := droplast _).
  assert (RD : rows d = J + 1) by (unfold d, droplast, slice2; cbn [rows mk2]; rewrite Rk; apply sl_len_drop; lia).
  assert (CD : cols d = L) by (unfold d, droplast, slice2; cbn [cols mk2]; rewrite Ck; apply sl_len_full; lia).
  cbn [rows cols mk2]. rewrite RD, CD, !Z.eqb_refl. cbn [andb Py.guard bind].
  apply bind_ext. intros kr. do 2 f_equal. unfold map2. cbn [rows cols mk2]. rewrite RD, CD. apply mk2_ext. intros i j Hi Hj. f_equal.
  rewrite !get2_mk by lia. reflexivity.
Qed.

Lemma binom_fint flg fexp (n k : nat) (x : f64) : accurate_loggamma flg -> relative_exp fexp -> (k <= n <= 40)%nat ->
  is_finite x = true -> B2R x = IZR (Z.of_nat k) -> binomial_fp flg fexp (Z.of_nat n) x = fint (Z.of_nat (pascal_tri n k)).
Proof.
  intros Hg He Hk F E. destruct (binom_exact_fp flg fexp n k x Hg He Hk F E) as [A B].
  pose proof (tri_pos n k ltac:(lia)) as P. pose proof (tri_bound n k Hk) as T. rewrite INR_IZR_INZ in T. apply le_IZR in T.
  apply fint_eq; [lia|lia|exact A|]. rewrite B. apply INR_IZR_INZ.
Qed.
Lemma rdir_lib flg fexp jlg jexp N el m : accurate_loggamma flg -> relative_exp fexp -> accurate_loggamma jlg -> relative_exp jexp ->
  1 <= N <= 41 -> 1 <= el -> Z.abs m <= el -> dmask N m = true -> rdir jlg jexp N el m = rdir flg fexp N el m.
Proof.
  intros Hg He Hg' He' HN Hel Hm Hd. destruct (gam_mask N el m ltac:(lia) Hel Hm Hd) as (Hgm & k & Hk & Hkr).
  pose proof (gam_range N el ltac:(lia) Hel) as [Hg'' _]. unfold rdir. set (g := gam N el) in *.
  destruct (half_k g m k ltac:(lia) Hk) as [Fh Eh]. do 2 f_equal.
  assert (B : forall lg ex, accurate_loggamma lg -> relative_exp ex -> binomial_fp lg ex g (fdiv (fint (g - m)) (fint 2)) = fint (Z.of_nat (pascal_tri (Z.to_nat g) (Z.to_nat k)))).
  { intros lg ex H1 H2. rewrite <- (binom_fint lg ex _ _ (fdiv (fint (g - m)) (fint 2)) H1 H2); [|lia|exact Fh|rewrite Eh; f_equal; lia]. now rewrite Z2Nat.id by lia. }
  now rewrite !B by assumption.
Qed.
Lemma rdir_pos flg fexp N el m : accurate_loggamma flg -> relative_exp fexp ->
  1 <= N <= 41 -> 1 <= el -> Z.abs m <= el -> dmask N m = true -> is_finite_strict (rdir flg fexp N el m) = true.
Proof.
  intros Hg He HN Hel Hm Hd. destruct (rdir_fa flg fexp Hg He N el m HN Hel Hm Hd) as [F (A & B & _)].
  assert (NZ : (0 < B2R (rdir flg fexp N el m))%R).
  { apply Rlt_le_trans with (2 := B). apply Rmult_lt_0_compat; [|apply exp_pos].
    destruct (gam_mask N el m ltac:(lia) Hel Hm Hd) as (Hgm & k & Hk & Hkr). pose proof (gam_range N el ltac:(lia) Hel) as [Hg' _].
    apply sqrt_lt_R0. unfold dsq. set (g := gam N el) in *. replace ((g - m) / 2) with k by (rewrite Hk, Z.mul_comm, Z.div_mul; lia).
    apply Rdiv_lt_0_compat; [|apply pow_lt; lra]. apply lt_0_INR. pose proof (tri_pos (Z.to_nat g) (Z.to_nat k)). lia. }
  destruct (rdir flg fexp N el m); try discriminate F; try reflexivity. cbn in NZ. lra.
Qed.

(** the product with nu *)
Definition nuj (N : Z) : c64 := (fadd (fmul (fint ((N mod 2 - 1) ^ 2)) (fint 0)) (fint (N mod 2)), fmul (fint ((N mod 2 - 1) ^ 2)) (fint 1)).
Lemma nuj_ok N r : is_finite_strict r = true -> cmul (nuj N) (creal r) = nuf N r.
Proof.
  intros F. assert (F' : is_finite r = true) by (destruct r; try discriminate F; reflexivity).
  unfold nuj, nuf. pose proof (Z.mod_pos_bound N 2 ltac:(lia)). assert (N mod 2 = 0 \/ N mod 2 = 1) as [-> | ->] by lia.
  - cbn [negb Z.eqb]. do 2 f_equal; apply B2SF_inj; vm_compute; reflexivity.
  - cbn [negb Z.eqb]. unfold cmul, creal. cbn [fst snd].
    replace (fadd (fmul (fint ((1 - 1) ^ 2)) (fint 0)) (fint 1)) with (fint 1) by (apply B2SF_inj; vm_compute; reflexivity).
    replace (fmul (fint ((1 - 1) ^ 2)) (fint 1)) with (fint 0) by (apply B2SF_inj; vm_compute; reflexivity).
    destruct (fmul_1 r F') as [A1 B1]. destruct (fmul_0l r F') as [A0 B0].
    assert (NR : B2R r <> 0%R). { destruct r as [s|s| |s m e b]; try discriminate F. cbn [B2R]. apply F2R_neq_0. now destruct s. }
    assert (S1 : is_finite_strict (fmul (fint 1) r) = true) by (destruct (fmul (fint 1) r); try discriminate A1; try reflexivity; cbn [B2R] in B1; congruence).
    f_equal.
    + destruct (fsub_z (fmul (fint 1) r) (fmul (fint 0) (fint 0)) A1 eq_refl eq_refl) as [A2 B2]. apply B2R_inj; [|exact S1|exact B2].
      destruct (fsub _ _); try discriminate A2; try reflexivity. cbn [B2R] in B2. congruence.
    + change (fmul (fint 1) (fint 0)) with (fint 0). unfold fmul. clear - F. destruct r as [s|s| |s m e b]; try discriminate F. destruct s; reflexivity.
Qed.

Lemma tiling_jax_gen jlg jexp L N : 1 <= L -> int64_powers L N ->
  (forall el m, 1 <= el < L -> Z.abs m <= el -> dmask N m = true -> is_finite_strict (rdir jlg jexp N el m) = true) ->
  tiling_direction_jax_fp jlg jexp L N = Ok (sf_arr jlg jexp L N).
Proof.
  intros HL H64 HR.
  unfold tiling_direction_jax_fp. rewrite zeros2_ok by lia. cbn [bind]. fold (nuj N).
  rewrite (for_paint2 _ _ _ _ _
    (fun el x y => (x =? el) && ((L - 1 - el <=? y) && (y <? L + el)))
    (fun el q => sdf jlg jexp N el (q - (L - 1)))); [|lia|].
  - f_equal. apply mk2_ext. intros el q Hel Hq.
    destruct (existsb _ _) eqn:E; auto. symmetry. unfold sdf.
    destruct (Z.leb_spec 1 el); simpl; auto.
    destruct (Z.leb_spec (Z.abs (q - (L - 1))) el); simpl; auto.
    exfalso. apply not_true_iff_false in E. apply E. apply existsb_zrange.
    exists el. split; [lia|]. zb.
  - intros el g Hel. rewrite gam_jax. rewrite (proj2 (Z.ltb_lt _ _) (gam_64 L N el H64 Hel)). cbn [Py.guard bind].
    unfold upd2. cbn [rows cols mk2].
    destruct (slice_between L el (el + 1)) as (E1 & _); try lia.
    destruct (slice_between (2 * L - 1) (L - 1 - el) (L + el)) as (E2 & _); try lia.
    rewrite E1, E2. unfold bok.
    replace (1 =? el + 1 - el) with true by zb.
    replace (2 * el + 1 =? L + el - (L - 1 - el)) with true by zb. cbn [orb andb].
    f_equal. apply mk2_ext. intros x y Hx Hy. rewrite !mem_between, !pos_between by lia.
    assert (Hx1 : (el <=? x) && (x <? el + 1) = (x =? el)) by zb. rewrite Hx1.
    destruct (Z.eqb_spec x el) as [->|]; cbn [andb]; [|rewrite get2_mk by lia; reflexivity].
    destruct (Z.leb_spec (L - 1 - el) y); cbn [andb]; [|rewrite get2_mk by lia; reflexivity].
    destruct (Z.ltb_spec y (L + el)); [|rewrite get2_mk by lia; reflexivity].
    unfold assign, bi. destruct (Z.eqb_spec (2 * el + 1) 1); [lia|].
    change (1 =? 1) with true. cbv iota. rewrite get2_mk by lia. cbv beta.
    replace (- el + (y - (L - 1 - el))) with (y - (L - 1)) by lia.
    rewrite dmask_jax. unfold sdf. destruct (Z.leb_spec 1 el); [|lia].
    destruct (Z.leb_spec (Z.abs (y - (L - 1))) el); [|lia]. cbn [andb].
    destruct (dmask N (y - (L - 1))) eqn:Ed; auto.
    apply nuj_ok. apply (HR el (y - (L - 1))); auto; lia.
Qed.
Lemma tiling_jax_ok jlg jexp L N : accurate_loggamma jlg -> relative_exp jexp -> 1 <= L -> 1 <= N <= 41 ->
  tiling_direction_jax_fp jlg jexp L N = Ok (sf_arr jlg jexp L N).
Proof. intros Hg He HL HN. apply tiling_jax_gen; [exact HL|left; lia|]. intros el m Hel Hm Hd. apply rdir_pos; auto; lia. Qed.
Lemma tiling_jax_fp_overflow jlg jexp L N : 1 <= L -> ~ int64_powers L N ->
  tiling_direction_jax_fp jlg jexp L N = Err OverflowError.
Proof.
  intros HL H. destruct (gam_63 L N H) as (k & Hk & Hg). unfold tiling_direction_jax_fp.
  rewrite zeros2_ok by lia. cbn [bind].
  apply (for_err_only (fun a => rows a = L /\ cols a = 2 * L - 1) _ _ k); [lia|split; reflexivity| |].
  - intros el a Hel [Ea Eb]. rewrite gam_jax. destruct (Z.ltb_spec (gam N el) 63); [|right; reflexivity].
    left. cbn [Py.guard bind]. unfold upd2. rewrite Ea, Eb. cbn [rows cols mk2].
    destruct (slice_between L el (el + 1)) as (E1 & _); try lia.
    destruct (slice_between (2 * L - 1) (L - 1 - el) (L + el)) as (E2 & _); try lia.
    rewrite E1, E2. unfold bok.
    replace (1 =? el + 1 - el) with true by zb.
    replace (2 * el + 1 =? L + el - (L - 1 - el)) with true by zb. cbn [orb andb].
    eexists. split; [reflexivity|]. split; reflexivity.
  - intros a _. rewrite gam_jax. destruct (Z.ltb_spec (gam N k) 63); [lia|reflexivity].
Qed.
Lemma sf_lib flg fexp jlg jexp L N : accurate_loggamma flg -> relative_exp fexp -> accurate_loggamma jlg -> relative_exp jexp -> 1 <= N <= 41 ->
  sf_arr jlg jexp L N = sf_arr flg fexp L N.
Proof.
  intros. apply mk2_ext. intros el q Hel Hq. unfold sdf. destruct (Z.leb_spec 1 el); cbn [andb]; [|reflexivity].
  destruct (Z.leb_spec (Z.abs (q - (L - 1))) el); cbn [andb]; [|reflexivity]. destruct (dmask N (q - (L - 1))) eqn:D; [|reflexivity].
  f_equal. now apply rdir_lib.
Qed.

(*% for two different implementations of log-gamma and exp *)
(*@ C78_directional_component *)
Lemma dir_jax : forall flg fexp jlg jexp L N, accurate_loggamma flg -> relative_exp fexp -> accurate_loggamma jlg -> relative_exp jexp ->
  1 <= L -> 1 <= N <= 41 -> tiling_direction_jax_fp jlg jexp L N = tiling_direction_fp flg fexp L N.
Proof. intros. rewrite tiling_jax_ok, tiling_fp_ok by (auto; lia || (left; lia)). f_equal. now apply sf_lib. Qed.

(*% so numpy's directional component does not depend on the library either *)
(*@ C78_library_independent *)
Lemma dir_libs : forall flg fexp flg' fexp' L N, accurate_loggamma flg -> relative_exp fexp -> accurate_loggamma flg' -> relative_exp fexp' ->
  1 <= L -> 1 <= N <= 41 -> tiling_direction_fp flg' fexp' L N = tiling_direction_fp flg fexp L N.
Proof. intros. rewrite !tiling_fp_ok by (lia || (left; lia)). f_equal. now apply sf_lib. Qed.

(*@ C78_directional_filters *)
Lemma dirf_jax : forall fexp fpow flg jlg jexp J L N J_min lam spin,
  accurate_loggamma flg -> relative_exp fexp -> accurate_loggamma jlg -> relative_exp jexp -> 1 <= L -> 1 <= N <= 41 ->
  filters_directional_jax_fp fexp fpow jlg jexp J L N J_min lam spin 0 = filters_directional_vectorised_fp fexp fpow flg J L N J_min lam spin 0.
Proof.
  intros fexp fpow flg jlg jexp J L N J_min lam spin H1 H2 H3 H4 HL HN. unfold filters_directional_jax_fp, filters_directional_vectorised_fp.
  rewrite axi_jax, (dir_jax flg fexp) by auto. reflexivity.
Qed.

(*% with 64 or more directions JAX cannot convert 2**gamma to int64, whatever the libraries compute *)
(*@ C83_binary64 *)
Lemma dirf_jax_overflow : forall fexp fpow jlg jexp J L N J_min lam spin psi phi, 1 <= L -> ~ int64_powers L N ->
  filters_axisym_jax_fp fexp fpow J L J_min lam = Ok (psi, phi) ->
  tiling_direction_jax_fp jlg jexp L N = Err OverflowError /\
  filters_directional_jax_fp fexp fpow jlg jexp J L N J_min lam spin 0 = Err OverflowError.
Proof.
  intros fexp fpow jlg jexp J L N J_min lam spin psi phi HL H E. unfold filters_directional_jax_fp. rewrite E.
  cbn [negb Z.eqb bind]. rewrite tiling_jax_fp_overflow by assumption. split; reflexivity.
Qed.

(*% a non-zero spin0 raises, whatever the other arguments *)
(*@ C78_spin_lowered_raises *)
Lemma dirf_jax_spin0 : forall fexp fpow jlg jexp J L N J_min lam spin spin0, spin0 <> 0 ->
  filters_directional_jax_fp fexp fpow jlg jexp J L N J_min lam spin spin0 = Err TypeError.
Proof. intros. unfold filters_directional_jax_fp. destruct (Z.eqb_spec spin0 0); [contradiction|]. reflexivity. Qed.

(*% with lam = 2 the JAX filters are admissible up to the quadrature and rounding errors *)
(*@ C78_admissible *)
Lemma jax_adm : forall fexp fpow jlg jexp J L N J_min spin psi phi, 1 <= L <= 2 ^ 52 -> 1 <= N <= 41 ->
  accurate_loggamma jlg -> relative_exp jexp -> relative_exp fexp -> accurate_exp fexp -> exact_powers fpow J -> j_max L 2 = Ok J ->
  filters_directional_jax_fp fexp fpow jlg jexp J L N J_min (fint 2) spin 0 = Ok (psi, phi) ->
  forall l, Z.abs spin <= l < L ->
    (1 - bpow radix2 (-47) <= fp_dir_total L psi phi J_min J l <= 1 + quad_error 2 300 + bpow radix2 (-33))%R.
Proof.
  intros fexp fpow jlg jexp J L N J_min spin psi phi HL HN Hg Hr Hr' Hf HP EJ E. rewrite (dirf_jax fexp fpow jlg) in E by (auto; lia).
  now apply (fp2_dirf_adm_vec fexp fpow jlg J L N J_min spin).
Qed.

(*% analysis and synthesis by the JAX transform with the JAX filters *)
(*@ C78_round_trip *)
Lemma rt_jax_jax : forall fexp fpow jlg jexp fsum O J flm f L N J_min spin s nside reality d B psi phi pa ps qa qs,
  1 <= L <= 2 ^ 52 -> 1 <= N <= L -> N <= 41 -> accurate_loggamma jlg -> relative_exp jexp -> relative_exp fexp -> accurate_exp fexp -> exact_powers fpow J -> j_max L 2 = Ok J ->
  0 <= J_min < J -> summation fsum -> (0 <= d <= 1)%R -> (bpow radix2 (-900) <= B <= bpow radix2 780)%R -> accurate64 false d (jax_lib O) L spin s nside reality ->
  filters_directional_jax_fp fexp fpow jlg jexp J L N J_min (fint 2) spin 0 = Ok (psi, phi) ->
  generate_wigner_precomputes_fp fpow J L N J_min (fint 2) s nside false reality = Ok qa -> (pa = None \/ pa = Some qa) ->
  generate_wigner_precomputes_fp fpow J L N J_min (fint 2) s nside true reality = Ok qs -> (ps = None \/ ps = Some qs) ->
  is_harmonic L spin reality (vals2 flm) -> numbers2 B flm -> inv64 (jax_lib O) flm L spin s nside reality = Ok f ->
  exists w sc g,
    jax_analysis_fp fpow O J f L N J_min (fint 2) spin s nside reality (Some (psi, phi)) pa = Ok (w, sc) /\
    jax_synthesis_fp fpow fsum O J w sc L N J_min (fint 2) spin s nside reality (Some (psi, phi)) ps = inv64 (jax_lib O) g L spin s nside reality /\
    harmonic L spin (vals2 g) /\
    forall l q, 0 <= l < L -> 0 <= q < 2 * L - 1 ->
      finite64 (get2 g l q) /\
      (Cmod (cval (get2 g l q) - cval (get2 flm l q))%C
       <= (quad_error 2 300 + bpow radix2 (-32)) * Cmod (cval (get2 flm l q))
          + d * B * (3 * sqrt (IZR (N * (J + 1) * (2 * l + 1))) + 21) + bpow radix2 (-1000))%R.
Proof.
  intros fexp fpow jlg jexp fsum O J flm f L N J_min spin s nside reality d B psi phi pa ps qa qs HL HN HN' Hg Hr Hr' Hf HP EJ HJ Hfs Hd HB HA EF.
  rewrite (dirf_jax fexp fpow jlg) in EF by (auto; lia). intros. eapply (rt_jax64 fexp fpow jlg) with (qa := qa) (qs := qs); eauto.
Qed.

(** *** a second library: like the first, but ln 0! and ln 1! come out as 2^-50 *)
Definition tiny : f64 := binary_normalize 53 1024 gt53 lt53 mode_NE 1 (-50) false.
Lemma tiny_ok : is_finite tiny = true /\ B2R tiny = bpow radix2 (-50).
Proof.
  assert (E : B2SF tiny = SpecFloat.S754_finite false 4503599627370496 (-102)) by (vm_compute; reflexivity).
  destruct tiny; try discriminate E. cbn in E. injection E as -> -> ->. split; [reflexivity|]. cbn [B2R]. unfold F2R. cbn. lra.
Qed.
Definition lg2 (x : f64) : f64 := if feq x (fint 1) || feq x (fint 2) then tiny else near_lg x.
Lemma feq_val (x y : f64) : is_finite x = true -> is_finite y = true -> feq x y = true -> B2R x = B2R y.
Proof. intros Fx Fy E. unfold feq in E. rewrite Beqb_correct in E by assumption. now destruct (Req_bool_spec (B2R x) (B2R y)). Qed.
Lemma lg2_ok : accurate_loggamma lg2.
Proof.
  intros n Hn. cbv zeta. unfold lg2. destruct (feq _ _ || feq _ _) eqn:E; [|apply (near_loggamma n Hn)].
  destruct tiny_ok as [F V]. split; [exact F|]. rewrite V.
  assert (H : fact n = 1%nat).
  { destruct (fint_ok (Z.of_nat n + 1) ltac:(lia)) as [Fx Ex]. apply orb_prop in E as [E|E]; apply feq_val in E; auto; rewrite Ex, fint_B2R in E by lia; apply eq_IZR in E.
    - replace n with 0%nat by lia. reflexivity.
    - replace n with 1%nat by lia. reflexivity. }
  rewrite H. cbn [INR]. rewrite ln_1, Rminus_0_r, Rplus_0_r, Rmult_1_r. rewrite Rabs_pos_eq by apply bpow_ge_0. apply bpow_le. lia.
Qed.

(*% two libraries that differ: the JAX filters for lam = 2, L = 5, N = 3 are returned and are those of numpy *)
(*@E C78_example *)
Lemma ex_c78 : exists fexp fpow flg jlg psi phi, accurate_loggamma flg /\ accurate_loggamma jlg /\ flg (fint 1) <> jlg (fint 1) /\
  relative_exp fexp /\ accurate_exp fexp /\ exact_powers fpow 3 /\ j_max 5 2 = Ok 3 /\
  filters_directional_jax_fp fexp fpow jlg fexp 3 5 3 1 (fint 2) 0 0 = Ok (psi, phi) /\
  filters_directional_vectorised_fp fexp fpow flg 3 5 3 1 (fint 2) 0 0 = Ok (psi, phi) /\
  (99 / 100 <= fp_dir_total 5 psi phi 1 3 2 <= 101 / 100)%R.
Proof.
  destruct j_max_5_2 as (EJ & _). pose proof (pow2_exact_powers 3 ltac:(lia)) as HP.
  destruct (fp2_dirf_total near_exp pow2 near_lg 3 5 3 1 0 0 ltac:(lia) ltac:(left; lia) ltac:(lia) HP) as [_ ([psi phi] & E2)].
  assert (E1 : filters_directional_jax_fp near_exp pow2 lg2 near_exp 3 5 3 1 (fint 2) 0 0 = Ok (psi, phi)).
  { rewrite (dirf_jax near_exp pow2 near_lg) by (auto using lg2_ok, near_loggamma, near_relative; lia). exact E2. }
  exists near_exp, pow2, near_lg, lg2, psi, phi. split; [apply near_loggamma|]. split; [apply lg2_ok|]. split.
  { intros Q. apply (f_equal B2R) in Q. change (lg2 (fint 1)) with tiny in Q. rewrite (proj2 tiny_ok) in Q.
    assert (W : B2R (near_lg (fint 1)) = 0%R).
    { unfold near_lg. rewrite fint_B2R by lia. rewrite Zfloor_IZR. change (Z.to_nat (1 - 1)) with 0%nat. cbn [fact INR]. rewrite ln_1.
      destruct (to_f64_ok 0) as (_ & _ & _ & K); [split; [lra|apply bpow_ge_0]|]. now apply K. }
    rewrite W in Q. pose proof (bpow_gt_0 radix2 (-50)). lra. }
  split; [apply near_relative|]. split; [apply near_accurate|]. split; [exact HP|]. split; [exact EJ|]. split; [exact E1|]. split; [exact E2|].
  pose proof (jax_adm near_exp pow2 lg2 near_exp 3 5 3 1 0 psi phi ltac:(lia) ltac:(lia) lg2_ok near_relative near_relative near_accurate HP EJ E1 2 ltac:(lia)) as T.
  pose proof quad_err2. change (bpow radix2 (-47)) with (/ 140737488355328)%R in T. change (bpow radix2 (-33)) with (/ 8589934592)%R in T. lra.
Qed.
