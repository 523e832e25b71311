(** Statements and proofs for PropertiesFloatDirFilter.v *)

From Coq Require Import ZArith Reals List Bool Lia Lra Psatz Factorial.
From Coquelicot Require Import Rcomplements Complex.
From Flocq Require Import Core Relative IEEE754.BinarySingleNaN.
From Verif Require Import Py PyFacts ModelSamples SamplesFacts SamplesProps ModelFilters FiltersFacts DirectionFacts DirFilterFacts Spec SpecQuad FiltersProps.
From Verif Require Import ModelFloat ModelFloatDir FloatProps SpecFp SpecFpDir FloatFacts FloatFilterProps FloatDefault FloatAccProps FloatDirFacts FloatDirProps.
From Verif Require Import FloatFacts.
Import ListNotations.
Open Scope Z_scope.

(*T The directional filters in binary64 *)
(*! From Coq Require Import ZArith Reals List Bool. *)
(*! From Coquelicot Require Import Complex. *)
(*! From Flocq Require Import Core IEEE754.BinarySingleNaN. *)
(*! Import ListNotations. *)
(*! From Verif Require Import Py ModelSamples ModelFilters ModelFloat ModelFloatDir Spec SpecQuad SpecFp SpecFpDir. *)

(** ** closed forms *)
Definition snf (l spin : Z) : f64 := match spin_normalization_fp l spin with Ok w => w | Err _ => fint 0 end.

Definition big (f : f64) : Prop := f = finf \/ (is_finite f = true /\ (1 <= B2R f)%R).
Lemma big_feq f : big f -> feq f (fint 0) = false.
Proof.
  intros [-> |[F H]]; [reflexivity|]. apply feq_false; [exact F|reflexivity|]. change (B2R (fint 0)) with 0%R. lra.
Qed.
Lemma pos_shape (x : f64) : is_finite x = true -> (1 <= B2R x)%R -> exists m e H, x = B754_finite false m e H.
Proof.
  intros F H. destruct x as [s|s| |s m e B]; try discriminate; cbn in H; [lra|]. destruct s; [|eauto].
  exfalso. assert (G : (F2R (Float radix2 (Z.neg m) e) < 0)%R) by (now apply F2R_lt_0). cbn in H, G. unfold F2R in *. cbn in *. lra.
Qed.
Lemma big_mul f k : big f -> 1 <= k <= 2 ^ 53 -> big (fmul f (fint k)).
Proof.
  intros Hf Hk. destruct (fint_ok k ltac:(lia)) as [Fk Ek]. assert (K1 : (1 <= B2R (fint k))%R) by (rewrite Ek; apply IZR_le; lia).
  destruct (pos_shape _ Fk K1) as (m & e & B & Es). destruct Hf as [-> |[F H]].
  - left. rewrite Es. reflexivity.
  - destruct (pos_shape _ F H) as (m' & e' & B' & Es').
    pose proof (Bmult_correct 53 1024 gt53 lt53 mode_NE f (fint k)) as G. rewrite F, Fk in G.
    change (Bmult mode_NE f (fint k)) with (fmul f (fint k)) in G. cbn [andb] in G.
    destruct (Rlt_bool_spec (Rabs (rnd (B2R f * B2R (fint k)))) (bpow radix2 1024)) as [Hlt|Hge].
    + destruct G as (G1 & G2 & _). right. split; [exact G2|]. rewrite G1. apply (rnd_ge_f _ (IZR 1)); [apply format_int; lia|].
      change (IZR 1) with 1%R. rewrite <- (Rmult_1_r 1). apply Rmult_le_compat; lra.
    + left. assert (SG : xorb (Bsign f) (Bsign (fint k)) = false) by (rewrite Es, Es'; reflexivity). rewrite SG in G.
      change (binary_overflow 53 1024 mode_NE false) with (SpecFloat.S754_infinity false) in G. destruct (fmul f (fint k)) as [| [] | |]; try discriminate. reflexivity.
Qed.
Lemma snf_ok l spin : Z.abs spin <= l <= 2 ^ 52 -> spin_normalization_fp l spin = Ok (snf l spin).
Proof.
  intros Hl. unfold snf. enough (exists w, spin_normalization_fp l spin = Ok w) as (w & ->); [reflexivity|].
  unfold spin_normalization_fp. destruct (Z.eq_dec spin 0) as [->|NZ]; [eexists; reflexivity|].
  destruct (for_prog (fun _ f => big f) (- Z.abs spin + 1) (Z.abs spin + 1) (fint 1)
    (fun s factor => Ok (fmul factor (fint (l + s))))) as (f & -> & Hf).
  - lia.
  - right. split; [reflexivity|]. rewrite fint_B2R by lia. lra.
  - intros i a Hi Ha. eexists. split; [reflexivity|]. apply big_mul; [exact Ha|lia].
  - cbn [bind]. destruct (0 <? spin); [eexists; reflexivity|]. rewrite pydiv_ok by now apply big_feq. eexists. reflexivity.
Qed.

Section LOOP.
Variables (fexp : f64 -> f64) (fpow : f64 -> Z -> f64) (flg : f64 -> f64).
Variables (J L N J_min : Z) (lam : f64) (spin spin0 : Z).
Let e := el_min spin spin0.

Definition phif (phi : arr1 f64) (l : Z) : f64 :=
  if (e <=? l) && negb (feq (get1 phi l) (fint 0))
  then let y := fmul (scal_weight_fp l) (get1 phi l) in
       if spin0 =? 0 then y else fmul y (fmul (snf l spin0) (fsgn spin0))
  else fint 0.
Definition psif (psi : arr2 f64) (j l m : Z) : c64 :=
  if (J_min <=? j) && (e <=? l) && negb (feq (get2 psi j l) (fint 0)) && (Z.abs m <=? l) && negb (czero (sdf flg fexp N l m))
  then let y := cmul (creal (fmul (wav_weight_fp l) (get2 psi j l))) (sdf flg fexp N l m) in
       if spin0 =? 0 then y else cmul y (creal (fmul (snf l spin0) (fsgn spin0)))
  else creal (fint 0).

Lemma dir_fp_ok psi phi : 1 <= L -> float_powers L N -> 0 <= J_min <= J + 1 -> (spin0 <> 0 -> forall l, e <= l < L -> spin_normalization_fp l spin0 = Ok (snf l spin0)) ->
  filters_axisym_fp fexp fpow J L J_min lam = Ok (psi, phi) -> rows psi = J + 1 -> cols psi = L -> len1 phi = L ->
  filters_directional_fp fexp fpow flg J L N J_min lam spin spin0 =
  Ok (mk3 (J + 1) L (2 * L - 1) (fun j l q => psif psi j l (q - (L - 1))), mk1 L (phif phi)).
Proof.
  intros HL HF HJ Hs EA Rp Cp Lp. unfold filters_directional_fp. fold (el_min spin spin0). fold e.
  assert (He : 0 <= e) by (unfold e, el_min; lia).
  rewrite zeros1_ok, zeros3_ok by lia. cbn [bind]. rewrite EA. cbn [bind]. rewrite tiling_fp_ok by assumption. cbn [bind].
  destruct (Z_le_gt_dec e L) as [HeL|HeL].
  2:{ rewrite zrange_nil by lia. cbn [for_ bind].
      rewrite (for_paint3 _ _ _ _ _ _ (fun _ _ _ _ => false) (fun _ _ _ => creal (fint 0))); [|lia|].
      2:{ intros i g Hi. reflexivity. }
      cbn [bind]. do 2 f_equal.
      - apply mk3_ext. intros j l q Hj Hl Hq. unfold psif. destruct (existsb _ _); destruct (Z.leb_spec e l); try lia; rewrite andb_false_r; reflexivity.
      - apply mk1_ext. intros l Hl. unfold phif. destruct (Z.leb_spec e l); [lia|reflexivity]. }
  rewrite (for_paint1 L _ e L (fun l x => (x =? l) && negb (feq (get1 phi l) (fint 0))) (phif phi)); [|lia|].
  2:{ intros l g Hl. rewrite rd1_ok by lia. cbn [bind].
      destruct (feq (get1 phi l) (fint 0)) eqn:Ex; cbn [negb].
      - f_equal. apply mk1_ext. intros. now rewrite andb_false_r.
      - rewrite wr1_mk by lia. cbn [bind].
        assert (EV : phif phi l = if spin0 =? 0 then fmul (scal_weight_fp l) (get1 phi l)
                      else fmul (fmul (scal_weight_fp l) (get1 phi l)) (fmul (snf l spin0) (fsgn spin0)))
          by (unfold phif; replace (e <=? l) with true by zb; rewrite Ex; reflexivity).
        destruct (Z.eqb_spec spin0 0) as [Es|Es]; cbn [negb].
        + f_equal. apply mk1_ext. intros x Hx. destruct (Z.eqb_spec x l) as [->|]; cbn [andb]; auto.
        + rewrite Hs by (auto; lia). cbn [bind].
          rewrite rd1_mk by lia. cbn [bind]. rewrite Z.eqb_refl, wr1_mk by lia.
          f_equal. apply mk1_ext. intros x Hx. destruct (Z.eqb_spec x l) as [->|]; cbn [andb]; auto. }
  cbn [bind].
  rewrite (for_paint3 (J + 1) L (2 * L - 1) _ J_min (J + 1)
    (fun j x y z => existsb (fun el => (x =? j) && negb (feq (get2 psi j el) (fint 0)) &&
        existsb (fun m => (y =? el) && (z =? L - 1 + m) && negb (czero (sdf flg fexp N el m)))
                (zrange (- el) (el + 1))) (zrange e L))
    (fun j l q => psif psi j l (q - (L - 1)))); [|lia|].
  - cbn [bind]. do 2 f_equal.
    + apply mk3_ext. intros j l q Hj Hl Hq.
      destruct (existsb _ _) eqn:E; [reflexivity|]. unfold psif.
      destruct (Z.leb_spec J_min j); cbn [andb]; [|reflexivity]. destruct (Z.leb_spec e l); cbn [andb]; [|reflexivity].
      destruct (feq (get2 psi j l) (fint 0)) eqn:E1; cbn [negb andb]; [reflexivity|].
      destruct (Z.leb_spec (Z.abs (q - (L - 1))) l); cbn [andb]; [|reflexivity].
      destruct (czero _) eqn:E2; cbn [negb]; [reflexivity|]. exfalso.
      apply not_true_iff_false in E. apply E. apply existsb_zrange. exists j. split; [lia|].
      apply existsb_zrange. exists l. split; [lia|]. rewrite Z.eqb_refl, E1. cbn [negb andb].
      apply existsb_zrange. exists (q - (L - 1)). split; [lia|]. rewrite Z.eqb_refl, E2.
      replace (q =? L - 1 + (q - (L - 1))) with true by zb. reflexivity.
    + apply mk1_ext. intros l Hl. destruct (existsb _ _) eqn:E; [reflexivity|].
      unfold phif. destruct (Z.leb_spec e l); cbn [andb]; [|reflexivity].
      destruct (feq (get1 phi l) (fint 0)) eqn:E1; cbn [negb]; [reflexivity|]. exfalso. apply not_true_iff_false in E. apply E. apply existsb_zrange. exists l.
      split; [lia|]. rewrite Z.eqb_refl, E1. reflexivity.
  - intros j g Hj.
    apply for_paint3; [lia|]. intros el g' Hel. rewrite rd2_ok by lia. cbn [bind].
    destruct (feq (get2 psi j el) (fint 0)) eqn:Ek; cbn [negb].
    { f_equal. apply mk3_ext. intros. now rewrite andb_false_r. }
    rewrite (for_paint3 (J + 1) L (2 * L - 1) _ (- el) (el + 1)
      (fun m x y z => (x =? j) && ((y =? el) && (z =? L - 1 + m) && negb (czero (sdf flg fexp N el m))))
      (fun j l q => psif psi j l (q - (L - 1)))); [|lia|].
    + f_equal. apply mk3_ext. intros x y z Hx Hy Hz.
      destruct (Z.eqb_spec x j) as [->|]; cbn [andb]; [reflexivity|].
      destruct (existsb _ _) eqn:E; auto. apply existsb_zrange in E.
      destruct E as (m & _ & E). discriminate.
    + intros m g'' Hm. unfold sf_arr. rewrite rd2_mk by lia. cbn [bind].
      replace (L - 1 + m - (L - 1)) with m by lia.
      destruct (czero (sdf flg fexp N el m)) eqn:Ez.
      { f_equal. apply mk3_ext. intros. cbn [negb]. now rewrite !andb_false_r. }
      assert (EV : psif psi j el m = let y := cmul (creal (fmul (wav_weight_fp el) (get2 psi j el))) (sdf flg fexp N el m) in
                   if spin0 =? 0 then y else cmul y (creal (fmul (snf el spin0) (fsgn spin0)))).
      { unfold psif. replace (J_min <=? j) with true by zb. replace (e <=? el) with true by zb. replace (Z.abs m <=? el) with true by zb. rewrite Ek, Ez. reflexivity. }
      cbv zeta in EV. rewrite wr3_mk by lia. cbn [bind negb].
      destruct (Z.eqb_spec spin0 0) as [Es|Es]; cbn [negb].
      * f_equal. apply mk3_ext. intros x y z Hx Hy Hz. rewrite andb_true_r, andb_assoc.
        destruct (Z.eqb_spec x j) as [->|]; cbn [andb]; auto.
        destruct (Z.eqb_spec y el) as [->|]; cbn [andb]; auto.
        destruct (Z.eqb_spec z (L - 1 + m)) as [->|]; cbn [andb]; auto.
        replace (L - 1 + m - (L - 1)) with m by lia. now rewrite EV.
      * rewrite Hs by (auto; lia). cbn [bind].
        rewrite rd3_mk by lia. cbn [bind]. rewrite !Z.eqb_refl. cbn [andb]. rewrite wr3_mk by lia.
        f_equal. apply mk3_ext. intros x y z Hx Hy Hz. rewrite andb_true_r, andb_assoc.
        destruct (Z.eqb_spec x j) as [->|]; cbn [andb]; auto.
        destruct (Z.eqb_spec y el) as [->|]; cbn [andb]; auto.
        destruct (Z.eqb_spec z (L - 1 + m)) as [->|]; cbn [andb]; auto.
        replace (L - 1 + m - (L - 1)) with m by lia. now rewrite EV.
Qed.
End LOOP.

Section VEC.
Variables (fexp : f64 -> f64) (fpow : f64 -> Z -> f64) (flg : f64 -> f64).
Variables (J L N J_min : Z) (lam : f64) (spin : Z).
Let e := el_min spin 0.

Definition phiv (phi : arr1 f64) (l : Z) : f64 := if e <=? l then fmul (get1 phi l) (scal_weight_fp l) else fint 0.
Definition psiv (psi : arr2 f64) (j l m : Z) : c64 :=
  if e <=? l then cmul (creal (fmul (get2 psi j l) (wav_weight_vec_fp l))) (sdf flg fexp N l m) else creal (fint 0).

Lemma dir_vec_fp_ok psi phi : 1 <= L -> float_powers L N -> 0 <= J ->
  filters_axisym_vectorised_fp fexp fpow J L J_min lam = Ok (psi, phi) -> rows psi = J + 1 -> cols psi = L -> len1 phi = L ->
  filters_directional_vectorised_fp fexp fpow flg J L N J_min lam spin 0 =
  Ok (mk3 (J + 1) L (2 * L - 1) (fun j l q => psiv psi j l (q - (L - 1))), mk1 L (phiv phi)).
Proof.
  intros HL HF HJ EA Rp Cp Lp. unfold filters_directional_vectorised_fp. change (negb (0 =? 0)) with false. cbv iota.
  rewrite EA. cbn [bind]. rewrite tiling_fp_ok by assumption. cbn [bind]. fold (el_min spin 0). fold e.
  assert (He : 0 <= e) by (unfold e, el_min; lia).
  unfold sf_arr, fill1, fill3. rewrite Lp, Cp, Rp, !bdim_refl. cbn [bind]. cbn [len1 rows cols dim0 dim1 dim2 mk1 mk2 mk3].
  rewrite !bdim_refl. cbn [bind]. cbn [len1 rows cols dim0 dim1 dim2 mk1 mk2 mk3].
  do 2 f_equal.
  - apply mk3_ext. intros j l q Hj Hl Hq.
    rewrite !mem_full, mem_upto, get3_mk, !bi_in by lia. rewrite !get2_mk, !bi_in by lia.
    cbn [andb]. rewrite andb_true_r. unfold psiv.
    destruct (Z.ltb_spec l e), (Z.leb_spec e l); try lia; reflexivity.
  - apply mk1_ext. intros l Hl. rewrite mem_upto, get1_mk, !bi_in by lia. unfold phiv.
    destruct (Z.ltb_spec l e), (Z.leb_spec e l); try lia; reflexivity.
Qed.
End VEC.

(** ** entries of the axisymmetric filters are square roots *)
Definition rt (x : f64) : Prop := exists y, x = fsqrt y.
Lemma rt_0 : rt (fint 0). Proof. exists (fint 0). reflexivity. Qed.
Lemma axisym_fp_inv fexp fpow J L J_min lam psi phi : filters_axisym_fp fexp fpow J L J_min lam = Ok (psi, phi) ->
  0 <= J_min < J /\ rows psi = J + 1 /\ cols psi = L /\ len1 phi = L /\
  (forall j l, 0 <= j <= J -> 0 <= l < L -> rt (get2 psi j l)) /\ (forall l, 0 <= l < L -> rt (get1 phi l)).
Proof.
  intros H. destruct (loop_fp_inv _ _ _ _ _ _ _ _ H) as (HJ & k & Hk & Rp & Cp & Lp & _ & _ & Hphi).
  split; [exact HJ|]. split; [exact Rp|]. split; [exact Cp|]. split; [exact Lp|].
  split; [|intros l Hl; rewrite Hphi by exact Hl; eexists; reflexivity].
  unfold filters_axisym_fp in H. destruct ((J <=? J_min) || (J_min <? 0)) eqn:E; [discriminate|]. rewrite Hk in H. cbn [bind] in H.
  destruct (k_lam_fp_inv _ _ _ _ _ _ _ Hk) as (il & c & _ & _ & HJ2 & HL & Rk & Ck & _).
  rewrite zeros2_ok, zeros1_ok in H by lia. cbn [bind] in H.
  rewrite (for_fill1 L _ 0 L (fun l => fsqrt (get2 k J_min l))) in H; [|lia|lia|lia|].
  2:{ intros l g Hl. rewrite rd2_ok by lia. reflexivity. }
  cbn [bind] in H. apply bind_inv in H as ([[psi' pt] tm] & H & E'). injection E' as -> _.
  set (P := fun (j : Z) (st : arr2 f64 * f64 * option f64) => let a := fst (fst st) in
    rows a = J + 1 /\ cols a = L /\ rt (snd (fst st)) /\ (forall t, snd st = Some t -> rt t) /\
    (forall j' l, 0 <= j' <= J -> 0 <= l < L -> rt (get2 a j' l))).
  assert (HP : P (J + 1) (psi, pt, tm)).
  { refine (for_inv P J_min (J + 1) _ _ _ _ _ _ H); [lia| |].
    - unfold P. cbn [fst snd]. split; [reflexivity|]. split; [reflexivity|]. split; [try apply rt_0|]. split; [discriminate|].
      intros j' l Hj' Hl. rewrite get2_mk by lia. apply rt_0.
    - intros j a b Hj Pa Hb. refine (for_inv P 0 L _ _ b _ Pa _ Hb); [lia|].
      intros m [[a' p'] t'] [[b' p2] t2] Hm (A' & B' & C' & D' & F') Hb'. cbn [fst snd] in *.
      rewrite !rd2_ok in Hb' by lia. cbn [bind] in Hb'.
      apply bind_inv in Hb' as ([w tw] & Hw & Hb').
      assert (HW : exists v, w = mk2 (J + 1) L (fun p q => if (p =? j) && (q =? m) then v else get2 a' p q) /\ rt v /\ (forall t, tw = Some t -> rt t)).
      { destruct (flt _ _); apply bind_inv in Hw as (w' & Hw & E2); injection E2 as <- <-;
        rewrite wr2_ok in Hw by lia; apply Ok_inj in Hw as <-; rewrite A', B'; eexists; (split; [reflexivity|]).
        - split; [exact C'|exact D'].
        - split; [eexists; reflexivity|]. intros t Et. injection Et as <-. eexists; reflexivity. }
      destruct HW as (v & -> & Hv & Htw). destruct tw as [tw|]; [|discriminate]. injection Hb' as <- <- <-.
      unfold P. cbn [fst snd rows cols mk2]. split; [reflexivity|]. split; [reflexivity|].
      split; [auto|]. split; [auto|]. intros j' l Hj' Hl. rewrite get2_mk by lia. destruct (_ && _); auto. }
  destruct HP as (_ & _ & _ & _ & HP). exact HP.
Qed.
Lemma axisym_vec_fp_inv fexp fpow J L J_min lam psi phi : filters_axisym_vectorised_fp fexp fpow J L J_min lam = Ok (psi, phi) ->
  0 <= J_min < J /\ rows psi = J + 1 /\ cols psi = L /\ len1 phi = L /\
  (forall j l, 0 <= j <= J -> 0 <= l < L -> rt (get2 psi j l)) /\ (forall l, 0 <= l < L -> rt (get1 phi l)).
Proof.
  intros H. destruct (vec_fp_inv _ _ _ _ _ _ _ _ H) as (HJ & k & Hk & Rp & Cp & Lp & Hpsi & Hphi).
  split; [exact HJ|]. split; [exact Rp|]. split; [exact Cp|]. split; [exact Lp|].
  split; [intros j l Hj Hl; rewrite Hpsi by auto; eexists; reflexivity|intros l Hl; rewrite Hphi by exact Hl; eexists; reflexivity].
Qed.
Lemma rt_range x : rt x -> is_finite x = true -> (B2R x = 0 \/ bpow radix2 (-537) <= B2R x)%R /\ (B2R x <= bpow radix2 512)%R.
Proof.
  intros (y & ->) F. destruct (Bsqrt_correct 53 1024 gt53 lt53 mode_NE y) as (V & Fin & _). change (Bsqrt mode_NE y) with (fsqrt y) in *.
  rewrite V. assert (S0 : (0 <= sqrt (B2R y))%R) by apply sqrt_pos. pose proof (fmt y) as Gy.
  split.
  - destruct (Rle_lt_dec (B2R y) 0) as [H|H]; [left; rewrite sqrt_neg_0 by exact H; apply rnd_0|]. right.
    rewrite <- (round_generic radix2 (SpecFloat.fexp 53 1024) (round_mode mode_NE) (bpow radix2 (-537))) by (apply generic_format_bpow; vm_compute; discriminate).
    apply rnd_mono. apply Rsqr_incr_0_var; [|exact S0]. rewrite Rsqr_sqrt by lra. unfold Rsqr. rewrite <- bpow_plus. change (-537 + -537) with (-1074).
    pose proof (generic_format_ge_bpow radix2 (SpecFloat.fexp 53 1024) (-1074)) as GB. specialize (GB). apply GB; auto.
    intros e. unfold SpecFloat.fexp, SpecFloat.emin. lia.
  - rewrite <- (round_generic radix2 (SpecFloat.fexp 53 1024) (round_mode mode_NE) (bpow radix2 512)) by (apply generic_format_bpow; vm_compute; discriminate).
    apply rnd_mono. apply Rsqr_incr_0_var; [|apply bpow_ge_0]. destruct (Rle_lt_dec (B2R y) 0) as [H|H].
    + rewrite sqrt_neg_0 by exact H. unfold Rsqr. rewrite Rmult_0_l. apply Rmult_le_pos; apply bpow_ge_0.
    + rewrite Rsqr_sqrt by lra. unfold Rsqr. rewrite <- bpow_plus. change (512 + 512) with 1024. left.
      apply Rle_lt_trans with (Rabs (B2R y)); [apply Rle_abs|apply abs_B2R_lt_emax].
Qed.

(** ** weights *)
Lemma nr x a b : -1000 <= a -> b <= 1000 -> (bpow radix2 a <= x <= bpow radix2 b)%R -> norm_range x.
Proof.
  intros Ha Hb [H1 H2]. split; [right; eapply Rle_trans; [|exact H1]; apply bpow_le; lia|eapply Rle_trans; [exact H2|apply bpow_le; lia]].
Qed.
Lemma fa_int z : 0 <= z <= 2 ^ 53 -> fa 0 (fint z) (IZR z).
Proof.
  intros H. destruct (fint_ok z ltac:(lia)) as [F E]. split; [exact F|]. rewrite E. apply apx_refl; [lra|]. apply IZR_le. lia.
Qed.
Lemma pi34 : (3 < PI < 4)%R.
Proof. pose proof pi_bounds. lra. Qed.
Lemma l_rng l : 0 <= l < 2 ^ 52 -> (1 <= IZR (2 * l + 1) <= bpow radix2 53)%R.
Proof. intros H. split; [apply IZR_le; lia|]. change (bpow radix2 53) with (IZR (2 ^ 53)). apply IZR_le. lia. Qed.
Lemma cphi_fa l : 0 <= l < 2 ^ 52 -> fa (5 / 2 * u1) (scal_weight_fp l) (cphi l).
Proof.
  intros Hl. pose proof u1_pos. pose proof pi34. pose proof (l_rng l Hl) as [H1 H2]. unfold scal_weight_fp, cphi.
  assert (A : fa (2 * u1) (fmul (fint 4) fpi) (4 * PI)).
  { apply fa_weak with (0 + u1 + u1)%R; [lra|]. apply fa_mul; [lra|apply (fa_int 4); lia|apply fa_pi|].
    apply (nr _ 0 10); try lia. change (bpow radix2 0) with 1%R. change (bpow radix2 10) with 1024%R. lra. }
  assert (RA : (bpow radix2 (-10) <= IZR (2 * l + 1) / (4 * PI) <= bpow radix2 53)%R).
  { change (bpow radix2 (-10)) with (/ 1024)%R. set (x := IZR (2 * l + 1)) in *. split.
    - apply Rle_trans with (1 / 16)%R; [lra|]. apply Rmult_le_compat; try lra. apply Rinv_le_contravar; lra.
    - unfold Rdiv. rewrite <- (Rmult_1_r (bpow radix2 53)). apply Rmult_le_compat; [lra|left; apply Rinv_0_lt_compat; lra|exact H2|].
      rewrite <- Rinv_1. apply Rinv_le_contravar; lra. }
  assert (B : fa (3 * u1) (fdiv (fint (2 * l + 1)) (fmul (fint 4) fpi)) (IZR (2 * l + 1) / (4 * PI))).
  { apply fa_weak with (0 + 2 * u1 + u1)%R; [lra|]. apply fa_div; [lra|apply fa_int; lia|exact A|lra|]. apply (nr _ (-10) 53); try lia. exact RA. }
  apply fa_weak with (3 * u1 / 2 + u1)%R; [lra|]. apply fa_sqrt; [lra|exact B|].
  apply (nr _ (-10) 53); try lia. split.
  - apply Rsqr_incr_0_var; [|apply sqrt_pos]. rewrite Rsqr_sqrt by (eapply Rle_trans; [apply bpow_ge_0|apply RA]). unfold Rsqr. eapply Rle_trans; [|apply RA].
    change (bpow radix2 (-10)) with (/ 1024)%R. lra.
  - apply Rsqr_incr_0_var; [|apply bpow_ge_0]. rewrite Rsqr_sqrt by (eapply Rle_trans; [apply bpow_ge_0|apply RA]). eapply Rle_trans; [apply RA|].
    unfold Rsqr. rewrite <- bpow_plus. apply bpow_le. lia.
Qed.
Lemma sqrt_rng x a b : 0 <= b -> a <= 0 -> (bpow radix2 a <= x <= bpow radix2 b)%R -> (bpow radix2 a <= sqrt x <= bpow radix2 b)%R.
Proof.
  intros Hb Ha [H1 H2]. pose proof (bpow_gt_0 radix2 a). split.
  - apply Rsqr_incr_0_var; [|apply sqrt_pos]. rewrite Rsqr_sqrt by lra. eapply Rle_trans; [|exact H1]. unfold Rsqr. rewrite <- bpow_plus. apply bpow_le. lia.
  - apply Rsqr_incr_0_var; [|apply bpow_ge_0]. rewrite Rsqr_sqrt by lra. eapply Rle_trans; [exact H2|]. unfold Rsqr. rewrite <- bpow_plus. apply bpow_le. lia.
Qed.
Lemma div_rng x y : (1 <= x <= bpow radix2 53)%R -> (1 <= y <= 256)%R -> (bpow radix2 (-10) <= x / y <= bpow radix2 53)%R.
Proof.
  intros [H1 H2] [H3 H4]. split.
  - change (bpow radix2 (-10)) with (/ 1024)%R. apply Rle_trans with (1 / 256)%R; [lra|]. apply Rmult_le_compat; try lra. apply Rinv_le_contravar; lra.
  - unfold Rdiv. rewrite <- (Rmult_1_r (bpow radix2 53)). apply Rmult_le_compat; [lra|left; apply Rinv_0_lt_compat; lra|exact H2|].
    rewrite <- Rinv_1. apply Rinv_le_contravar; lra.
Qed.
Lemma cphi_rng l : 0 <= l < 2 ^ 52 -> (bpow radix2 (-10) <= cphi l <= bpow radix2 53)%R.
Proof. intros Hl. pose proof pi34. unfold cphi. apply sqrt_rng; try lia. apply div_rng; [now apply l_rng|lra]. Qed.
Lemma pi8_rng : (1 <= 8 * PI * PI <= 256)%R.
Proof. pose proof pi34. split; nra. Qed.
Lemma cpsi_rng l : 0 <= l < 2 ^ 52 -> (bpow radix2 (-10) <= cpsi l <= bpow radix2 53)%R.
Proof. intros Hl. unfold cpsi. apply sqrt_rng; try lia. apply div_rng; [now apply l_rng|apply pi8_rng]. Qed.
Lemma cpsi_fa l : 0 <= l < 2 ^ 52 -> fa (7 / 2 * u1) (wav_weight_fp l) (cpsi l).
Proof.
  intros Hl. pose proof u1_pos. pose proof pi34. pose proof (l_rng l Hl) as H1. pose proof pi8_rng. unfold wav_weight_fp.
  pose proof (cpsi_rng l Hl) as RC. unfold cpsi in *.
  assert (A : fa (2 * u1) (fmul (fint 8) fpi) (8 * PI)).
  { apply fa_weak with (0 + u1 + u1)%R; [lra|]. apply fa_mul; [lra|apply (fa_int 8); lia|apply fa_pi|].
    apply (nr _ 0 10); try lia. change (bpow radix2 0) with 1%R. change (bpow radix2 10) with 1024%R. lra. }
  assert (A' : fa (4 * u1) (fmul (fmul (fint 8) fpi) fpi) (8 * PI * PI)).
  { apply fa_weak with (2 * u1 + u1 + u1)%R; [lra|]. apply fa_mul; [lra|exact A|apply fa_pi|].
    apply (nr _ 0 10); try lia. change (bpow radix2 0) with 1%R. change (bpow radix2 10) with 1024%R. lra. }
  assert (B : fa (5 * u1) (fdiv (fint (2 * l + 1)) (fmul (fmul (fint 8) fpi) fpi)) (IZR (2 * l + 1) / (8 * PI * PI))).
  { apply fa_weak with (0 + 4 * u1 + u1)%R; [lra|]. apply fa_div; [lra|apply fa_int; lia|exact A'|lra|]. apply (nr _ (-10) 53); try lia. apply div_rng; lra. }
  apply fa_weak with (5 * u1 / 2 + u1)%R; [lra|]. apply fa_sqrt; [lra|exact B|].
  apply (nr _ (-10) 53); try lia. exact RC.
Qed.
Lemma cpsi_vec_fa l : 0 <= l < 2 ^ 52 -> fa (7 / 2 * u1) (wav_weight_vec_fp l) (cpsi l).
Proof.
  intros Hl. pose proof u1_pos. pose proof pi34. pose proof (l_rng l Hl) as H1. unfold wav_weight_vec_fp.
  pose proof (cpsi_rng l Hl) as RC. rewrite <- cpsi_vec in *.
  assert (RD : (bpow radix2 (-10) <= IZR (2 * l + 1) / 8 <= bpow radix2 53)%R) by (apply div_rng; lra).
  assert (B : fa u1 (fdiv (fint (2 * l + 1)) (fint 8)) (IZR (2 * l + 1) / 8)).
  { apply fa_weak with (0 + 0 + u1)%R; [lra|]. apply fa_div; [lra|apply fa_int; lia|apply (fa_int 8); lia|lra|]. apply (nr _ (-10) 53); try lia. exact RD. }
  assert (C : fa (3 / 2 * u1) (fsqrt (fdiv (fint (2 * l + 1)) (fint 8))) (sqrt (IZR (2 * l + 1) / 8))).
  { apply fa_weak with (u1 / 2 + u1)%R; [lra|]. apply fa_sqrt; [lra|exact B|]. apply (nr _ (-10) 53); try lia. apply sqrt_rng; try lia. exact RD. }
  apply fa_weak with (3 / 2 * u1 + u1 + u1)%R; [lra|]. apply fa_div; [lra|exact C|apply fa_pi|lra|].
  apply (nr _ (-10) 53); try lia. exact RC.
Qed.

Lemma nr_mul x y a b c d : (x = 0 \/ bpow radix2 a <= x)%R -> (x <= bpow radix2 b)%R -> (bpow radix2 c <= y <= bpow radix2 d)%R ->
  -1000 <= a + c -> b + d <= 1000 -> norm_range (x * y).
Proof.
  intros [-> |Hx] Hx2 [H1 H2] Ha Hb.
  - rewrite Rmult_0_l. split; [now left|apply bpow_ge_0].
  - pose proof (bpow_gt_0 radix2 a). pose proof (bpow_gt_0 radix2 c). split; [right|].
    + apply Rle_trans with (bpow radix2 (a + c)); [apply bpow_le; lia|]. rewrite bpow_plus. apply Rmult_le_compat; lra.
    + apply Rle_trans with (bpow radix2 (b + d)); [|apply bpow_le; lia]. rewrite bpow_plus. apply Rmult_le_compat; lra.
Qed.
Lemma fa_self x : is_finite x = true -> (0 <= B2R x)%R -> fa 0 x (B2R x).
Proof. intros F H. split; [exact F|]. apply apx_refl; lra. Qed.
Lemma rt_nonneg x : rt x -> is_finite x = true -> (0 <= B2R x)%R.
Proof. intros H F. destruct (rt_range x H F) as [[E|E] _]; [lra|]. pose proof (bpow_ge_0 radix2 (-537)). lra. Qed.

(** an entry of the wavelets: weight times kernel, then times the component *)
Section ENTRY.
Variables (flg fexp : f64 -> f64).
Hypothesis Hg : accurate_loggamma flg.
Hypothesis He : relative_exp fexp.
Variables (N l m : Z) (x p : f64).
Hypothesis HN : 1 <= N <= 41.
Hypothesis Hl : 0 <= l < 2 ^ 52.
Hypothesis Hx : rt x.
Hypothesis Fx : is_finite x = true.
Hypothesis Hp : fa (9 / 2 * u1) p (cpsi l * B2R x).

Lemma prod_range s : (s = 0 \/ bpow radix2 (-20) <= s)%R -> (s <= 1)%R -> norm_range (cpsi l * B2R x * s).
Proof.
  intros Hs Hs1. destruct (rt_range x Hx Fx) as [A B]. pose proof (cpsi_rng l Hl) as C. rewrite (Rmult_comm (cpsi l)).
  destruct Hs as [-> |Hs]; [rewrite Rmult_0_r; split; [now left|apply bpow_ge_0]|].
  rewrite Rmult_assoc. apply (nr_mul _ _ (-537) 512 (-30) 53); try lia; auto. pose proof (bpow_gt_0 radix2 (-10)). pose proof (bpow_gt_0 radix2 (-20)). split.
  - change (-30) with (-10 + -20). rewrite bpow_plus. apply Rmult_le_compat; lra.
  - rewrite <- (Rmult_1_r (bpow radix2 53)). apply Rmult_le_compat; lra.
Qed.
Lemma dsq_lb : 1 <= l -> Z.abs m <= l -> dmask N m = true -> (bpow radix2 (-20) <= sqrt (dsq N l m) <= 1)%R.
Proof.
  intros Hl1 Hm Hd. split.
  - destruct (gam_mask N l m ltac:(lia) Hl1 Hm Hd) as (Hgm & k & Hk & Hkr). pose proof (gam_range N l ltac:(lia) Hl1) as [Hg' _].
    apply Rsqr_incr_0_var; [|apply sqrt_pos]. rewrite Rsqr_sqrt by apply dsq_nonneg. unfold Rsqr. rewrite <- bpow_plus. change (-20 + -20) with (-40).
    unfold dsq. set (g := gam N l) in *. replace ((g - m) / 2) with k by (rewrite Hk, Z.mul_comm, Z.div_mul; lia).
    assert (T : (1 <= INR (pascal_tri (Z.to_nat g) (Z.to_nat k)))%R) by (replace 1%R with (INR 1) by reflexivity; apply le_INR, tri_pos; lia).
    assert (P : (0 < 2 ^ Z.to_nat g <= 2 ^ 40)%R) by (split; [apply pow_lt; lra|apply Rle_pow; [lra|lia]]).
    apply Rle_trans with (1 * / 2 ^ 40)%R.
    + change (bpow radix2 (-40)) with (/ 1099511627776)%R. lra.
    + apply Rmult_le_compat; [lra| |exact T|]; [left; apply Rinv_0_lt_compat; lra|]. apply Rinv_le_contravar; lra.
  - rewrite <- sqrt_1. apply sqrt_le_1_alt, dsq_le1.
Qed.
(** the product is real or imaginary like the component, with value v *)
Lemma entry_val : exists v, apx (13 / 2 * u1) v (cpsi l * B2R x * Cmod (sd N l m)) /\
  is_finite (fst (cmul (creal p) (sdf flg fexp N l m))) = true /\ is_finite (snd (cmul (creal p) (sdf flg fexp N l m))) = true /\
  cval (cmul (creal p) (sdf flg fexp N l m)) = Cmult (nu N) (RtoC v).
Proof.
  destruct Hp as [Fp Ap]. pose proof u1_pos. pose proof (rt_nonneg x Hx Fx) as X0. pose proof (cpsi_rng l Hl) as CR. pose proof (bpow_gt_0 radix2 (-10)).
  assert (ZC : let s := creal (fint 0) in exists v, apx (13 / 2 * u1) v (cpsi l * B2R x * 0) /\ is_finite (fst (cmul (creal p) s)) = true /\ is_finite (snd (cmul (creal p) s)) = true /\
     cval (cmul (creal p) s) = Cmult (nu N) (RtoC v)).
  { cbv zeta. exists 0%R. rewrite Rmult_0_r. split; [apply apx_refl; lra|]. destruct (fmul_0r p Fp) as [Z1 Z2].
    destruct (cmul_real p (creal (fint 0)) Fp eq_refl eq_refl Z1 Z1) as ((A & B) & C & D). split; [exact A|]. split; [exact C|].
    unfold cval. rewrite B, D. cbn [creal fst snd]. rewrite Z2. apply injective_projections; cbn; ring. }
  cbv zeta in ZC. unfold sdf, sd.
  destruct (Z.leb_spec 1 l); cbn [andb]; [|rewrite Cmod_0; exact ZC]. destruct (Z.leb_spec (Z.abs m) l); cbn [andb]; [|rewrite Cmod_0; exact ZC].
  destruct (dmask N m) eqn:D; [|rewrite Cmod_0; exact ZC]. clear ZC.
  rewrite Cmod_mult, Cmod_nu, Cmod_R, Rabs_pos_eq, Rmult_1_l by apply sqrt_pos.
  pose proof (rdir_fa flg fexp Hg He N l m HN ltac:(lia) ltac:(lia) D) as RF. set (r := rdir flg fexp N l m) in *.
  destruct (dsq_lb ltac:(lia) ltac:(lia) D) as [DL DU].
  assert (M : fa (13 / 2 * u1) (fmul p r) (cpsi l * B2R x * sqrt (dsq N l m))).
  { apply fa_weak with (9 / 2 * u1 + u1 + u1)%R; [lra|]. apply fa_mul; [lra|split; auto|exact RF|]. apply prod_range; auto. }
  destruct M as [MF MA]. exists (B2R (fmul p r)). split; [exact MA|]. destruct RF as [RF _]. destruct (nuf_val N r RF) as (NA & NB & NV).
  assert (G0 : forall y : f64, is_finite y = true -> B2R y = 0%R -> is_finite (fmul p y) = true /\ B2R (fmul p y) = 0%R).
  { intros y Fy Y0. destruct (fmul_ok p y Fp Fy) as [A B]; [rewrite Y0, Rmult_0_r; apply small_rnd; rewrite Rabs_R0; lra|]. split; [exact A|].
    rewrite B, Y0, Rmult_0_r. apply rnd_0. }
  assert (Gr : forall y : f64, is_finite y = true -> B2R y = B2R r -> is_finite (fmul p y) = true /\ B2R (fmul p y) = B2R (fmul p r)).
  { intros y Fy Yr. destruct (fmul_ok p r Fp RF) as [A B].
    - destruct (Rlt_or_le (Rabs (rnd (B2R p * B2R r))) (bpow radix2 1024)) as [HH|HH]; [exact HH|exfalso].
      pose proof (Bmult_correct 53 1024 gt53 lt53 mode_NE p r) as GG. rewrite Rlt_bool_false in GG by exact HH.
      change (Bmult mode_NE p r) with (fmul p r) in GG. change (binary_overflow 53 1024 mode_NE) with (fun s => SpecFloat.S754_infinity s) in GG. cbv beta in GG.
      destruct (fmul p r); discriminate.
    - destruct (fmul_ok p y Fp Fy) as [A' B'].
      + rewrite Yr, <- B. apply abs_B2R_lt_emax.
      + split; [exact A'|]. rewrite B', Yr, <- B. reflexivity. }
  assert (NVF := f_equal fst NV). assert (NVS := f_equal snd NV). cbn [cval fst snd] in NVF, NVS. unfold nu.
  destruct (negb (N mod 2 =? 0)); cbn [fst snd] in NVF, NVS.
  - destruct (Gr _ NA NVF) as [G1 G2]. destruct (G0 _ NB NVS) as [G3 G4].
    destruct (cmul_real p (nuf N r) Fp NA NB G1 G3) as ((A & B) & C & D'). split; [exact A|]. split; [exact C|].
    assert (B2 := eq_trans B G2). assert (D2 := eq_trans D' G4).
    apply injective_projections; [eapply eq_trans; [exact B2|]|eapply eq_trans; [exact D2|]]; cbn [Cmult fst snd RtoC Ci]; ring.
  - destruct (G0 _ NA NVF) as [G1 G2]. destruct (Gr _ NB NVS) as [G3 G4].
    destruct (cmul_real p (nuf N r) Fp NA NB G1 G3) as ((A & B) & C & D'). split; [exact A|]. split; [exact C|].
    assert (B2 := eq_trans B G2). assert (D2 := eq_trans D' G4).
    apply injective_projections; [eapply eq_trans; [exact B2|]|eapply eq_trans; [exact D2|]]; cbn [Cmult fst snd RtoC Ci]; ring.
Qed.
End ENTRY.

(** ** both implementations *)
Definition near_dir (L N J J_min e : Z) (psi : arr3 c64) (phi : arr1 f64) (kpsi : arr2 f64) (kphi : arr1 f64) : Prop :=
  (forall l, e <= l < L -> is_finite (get1 kphi l) = true ->
     is_finite (get1 phi l) = true /\ apx (7 / 2 * u1) (B2R (get1 phi l)) (cphi l * B2R (get1 kphi l))) /\
  (forall j l m, J_min <= j <= J -> e <= l < L -> Z.abs m < L -> is_finite (get2 kpsi j l) = true ->
     let z := get3 psi j l (L - 1 + m) in is_finite (fst z) = true /\ is_finite (snd z) = true /\
     exists v, apx (13 / 2 * u1) v (cpsi l * B2R (get2 kpsi j l) * Cmod (sd N l m)) /\ cval z = Cmult (nu N) (RtoC v)).
Lemma creal0 N : cval (creal (fint 0)) = Cmult (nu N) (RtoC 0).
Proof. apply injective_projections; cbn; ring. Qed.
Lemma feq0 x : is_finite x = true -> feq x (fint 0) = true -> B2R x = 0%R.
Proof. intros F E. now apply (feq_iff x (fint 0)) in E. Qed.

Section BOTH.
Variables (fexp : f64 -> f64) (fpow : f64 -> Z -> f64) (flg : f64 -> f64).
Hypothesis Hg : accurate_loggamma flg.
Hypothesis He : relative_exp fexp.
Variables (J L N J_min : Z) (lam : f64) (spin : Z).
Hypothesis HL : 1 <= L <= 2 ^ 52.
Hypothesis HN : 1 <= N <= 41.
Variables (kpsi : arr2 f64) (kphi : arr1 f64) (psi : arr3 c64) (phi : arr1 f64).

Lemma near_loop : filters_axisym_fp fexp fpow J L J_min lam = Ok (kpsi, kphi) ->
  filters_directional_fp fexp fpow flg J L N J_min lam spin 0 = Ok (psi, phi) -> near_dir L N J J_min (Z.abs spin) psi phi kpsi kphi.
Proof.
  intros EA ED. destruct (axisym_fp_inv _ _ _ _ _ _ _ _ EA) as (HJ & Rp & Cp & Lp & Tpsi & Tphi).
  rewrite (dir_fp_ok fexp fpow flg J L N J_min lam spin 0 kpsi kphi) in ED; auto; try lia; try (left; lia).
  apply Ok_inj in ED. assert (P1 := f_equal fst ED). assert (P2 := f_equal snd ED). cbn [fst snd] in P1, P2. rewrite <- P1, <- P2. pose proof u1_pos. split.
  - intros l Hl F. rewrite get1_mk by lia. pose proof (Tphi l ltac:(lia)) as T. pose proof (cphi_rng l ltac:(lia)) as CR. pose proof (bpow_gt_0 radix2 (-10)).
    unfold phif. replace (el_min spin 0 <=? l) with true by (unfold el_min; zb). cbn [andb].
    destruct (feq (get1 kphi l) (fint 0)) eqn:E0; cbn [negb].
    + apply feq0 in E0; [|exact F]. rewrite E0. split; [reflexivity|]. change (B2R (fint 0)) with 0%R. rewrite Rmult_0_r. apply apx_refl; lra.
    + change (0 =? 0) with true. cbv iota. apply fa_weak with (5 / 2 * u1 + 0 + u1)%R; [lra|]. apply fa_mul; [lra|apply cphi_fa; lia|apply fa_self; [exact F|now apply rt_nonneg]|].
      rewrite Rmult_comm. destruct (rt_range _ T F) as [TA TB]. apply (nr_mul _ _ (-537) 512 (-10) 53); try lia; auto.
  - intros j l m Hj Hl Hm F. rewrite get3_mk by lia. replace (L - 1 + m - (L - 1)) with m by lia. cbv zeta.
    pose proof (Tpsi j l ltac:(lia) ltac:(lia)) as T. pose proof (cpsi_rng l ltac:(lia)) as CR. pose proof (bpow_gt_0 radix2 (-10)).
    assert (ZC : (B2R (get2 kpsi j l) = 0 \/ Cmod (sd N l m) = 0)%R -> is_finite (fst (creal (fint 0))) = true /\ is_finite (snd (creal (fint 0))) = true /\
       exists v, apx (13 / 2 * u1) v (cpsi l * B2R (get2 kpsi j l) * Cmod (sd N l m)) /\ cval (creal (fint 0)) = Cmult (nu N) (RtoC v)).
    { intros Z. split; [reflexivity|]. split; [reflexivity|]. exists 0%R. split; [|apply creal0].
      replace (cpsi l * B2R (get2 kpsi j l) * Cmod (sd N l m))%R with 0%R by (destruct Z as [-> | ->]; ring). apply apx_refl; lra. }
    unfold psif. replace (J_min <=? j) with true by zb. replace (el_min spin 0 <=? l) with true by (unfold el_min; zb). cbn [andb].
    destruct (feq (get2 kpsi j l) (fint 0)) eqn:E0; cbn [negb andb].
    { apply ZC. left. now apply feq0. }
    destruct (Z.leb_spec (Z.abs m) l) as [Hml|Hml]; cbn [andb].
    2:{ apply ZC. right. unfold sd. replace (Z.abs m <=? l) with false by zb. rewrite andb_false_r. apply Cmod_0. }
    destruct (czero (sdf flg fexp N l m)) eqn:Ez; cbn [negb].
    { apply ZC. right. unfold czero in Ez. apply andb_true_iff in Ez as [Z1 Z2]. destruct (sdf_fin flg fexp Hg He N l m HN) as [F1 F2].
      apply feq0 in Z1; [|exact F1]. apply feq0 in Z2; [|exact F2]. pose proof (sdf_sq flg fexp Hg He N l m HN) as (P & Q & _).
      replace (Cmod (cval (sdf flg fexp N l m))) with 0%R in Q by (unfold cval; rewrite Z1, Z2; symmetry; apply Cmod_0).
      pose proof (exp_pos (- (2 * u1))). pose proof (Cmod_ge_0 (sd N l m)). destruct (Req_dec (Cmod (sd N l m)) 0) as [E|NE]; [exact E|].
      exfalso. assert (0 < Cmod (sd N l m) ^ 2)%R by (apply pow_lt; lra).
      assert (0 < Cmod (sd N l m) ^ 2 * exp (- (2 * u1)))%R by (now apply Rmult_lt_0_compat). lra. }
    change (0 =? 0) with true. cbv iota.
    assert (HP : fa (9 / 2 * u1) (fmul (wav_weight_fp l) (get2 kpsi j l)) (cpsi l * B2R (get2 kpsi j l))).
    { apply fa_weak with (7 / 2 * u1 + 0 + u1)%R; [lra|]. apply fa_mul; [lra|apply cpsi_fa; lia|apply fa_self; [exact F|now apply rt_nonneg]|].
      rewrite Rmult_comm. destruct (rt_range _ T F) as [TA TB]. apply (nr_mul _ _ (-537) 512 (-10) 53); try lia; auto. }
    destruct (entry_val flg fexp Hg He N l m _ _ HN ltac:(lia) T F HP) as (v & A & B & C & D). split; [exact B|]. split; [exact C|]. exists v. auto.
Qed.
Lemma near_vec : filters_axisym_vectorised_fp fexp fpow J L J_min lam = Ok (kpsi, kphi) ->
  filters_directional_vectorised_fp fexp fpow flg J L N J_min lam spin 0 = Ok (psi, phi) -> near_dir L N J 0 (Z.abs spin) psi phi kpsi kphi.
Proof.
  intros EA ED. destruct (axisym_vec_fp_inv _ _ _ _ _ _ _ _ EA) as (HJ & Rp & Cp & Lp & Tpsi & Tphi).
  rewrite (dir_vec_fp_ok fexp fpow flg J L N J_min lam spin kpsi kphi) in ED; auto; try lia; try (left; lia).
  apply Ok_inj in ED. assert (P1 := f_equal fst ED). assert (P2 := f_equal snd ED). cbn [fst snd] in P1, P2. rewrite <- P1, <- P2. pose proof u1_pos. split.
  - intros l Hl F. rewrite get1_mk by lia. pose proof (Tphi l ltac:(lia)) as T. pose proof (cphi_rng l ltac:(lia)) as CR. pose proof (bpow_gt_0 radix2 (-10)).
    unfold phiv. replace (el_min spin 0 <=? l) with true by (unfold el_min; zb).
    rewrite (Rmult_comm (cphi l)). apply fa_weak with (0 + 5 / 2 * u1 + u1)%R; [lra|]. apply fa_mul; [lra|apply fa_self; [exact F|now apply rt_nonneg]|apply cphi_fa; lia|].
    destruct (rt_range _ T F) as [TA TB]. apply (nr_mul _ _ (-537) 512 (-10) 53); try lia; auto.
  - intros j l m Hj Hl Hm F. rewrite get3_mk by lia. replace (L - 1 + m - (L - 1)) with m by lia. cbv zeta.
    pose proof (Tpsi j l ltac:(lia) ltac:(lia)) as T. pose proof (cpsi_rng l ltac:(lia)) as CR. pose proof (bpow_gt_0 radix2 (-10)).
    unfold psiv. replace (el_min spin 0 <=? l) with true by (unfold el_min; zb).
    assert (HP : fa (9 / 2 * u1) (fmul (get2 kpsi j l) (wav_weight_vec_fp l)) (cpsi l * B2R (get2 kpsi j l))).
    { rewrite (Rmult_comm (cpsi l)). apply fa_weak with (0 + 7 / 2 * u1 + u1)%R; [lra|]. apply fa_mul; [lra|apply fa_self; [exact F|now apply rt_nonneg]|apply cpsi_vec_fa; lia|].
      destruct (rt_range _ T F) as [TA TB]. apply (nr_mul _ _ (-537) 512 (-10) 53); try lia; auto. }
    destruct (entry_val flg fexp Hg He N l m _ _ HN ltac:(lia) T F HP) as (v & A & B & C & D). split; [exact B|]. split; [exact C|]. exists v. auto.
Qed.
End BOTH.
Lemma near_dir_weak L N J a b e psi phi kpsi kphi : a <= b -> near_dir L N J a e psi phi kpsi kphi -> near_dir L N J b e psi phi kpsi kphi.
Proof. intros H [A B]. split; [exact A|]. intros j l m Hj. apply B. lia. Qed.

Lemma Cmod_nur N x : Cmod (Cmult (nu N) (RtoC x)) = Rabs x.
Proof. rewrite Cmod_mult, Cmod_nu, Cmod_R. ring. Qed.
Lemma sd_nu N l m : sd N l m = Cmult (nu N) (RtoC (Cmod (sd N l m))).
Proof.
  unfold sd. destruct (_ && _).
  - rewrite Cmod_nur, Rabs_pos_eq by apply sqrt_pos. reflexivity.
  - rewrite Cmod_0. apply injective_projections; cbn; ring.
Qed.

(*% ** C66: the directional filters *)
(*% whenever the axisymmetric filters are computed and the powers of two are floats, the directional ones are computed, whatever the library's loggamma; *)
(*% the normalisations for a nonzero spin never divide by zero *)
(*@ C66_filters_return *)
Lemma fp_dirf_return : forall fexp fpow flg J L N J_min lam spin spin0, 1 <= L <= 2 ^ 52 -> float_powers L N ->
  (forall k, filters_axisym_fp fexp fpow J L J_min lam = Ok k ->
     exists psi phi, filters_directional_fp fexp fpow flg J L N J_min lam spin spin0 = Ok (psi, phi) /\
       shape3 psi = [J + 1; L; 2 * L - 1] /\ shape1 phi = [L]) /\
  (forall k, filters_axisym_vectorised_fp fexp fpow J L J_min lam = Ok k ->
     exists psi phi, filters_directional_vectorised_fp fexp fpow flg J L N J_min lam spin 0 = Ok (psi, phi) /\
       shape3 psi = [J + 1; L; 2 * L - 1] /\ shape1 phi = [L]).
Proof.
  intros fexp fpow flg J L N J_min lam spin spin0 HL HF. split; intros [kpsi kphi] EA.
  - destruct (axisym_fp_inv _ _ _ _ _ _ _ _ EA) as (HJ & Rp & Cp & Lp & _ & _).
    rewrite (dir_fp_ok fexp fpow flg J L N J_min lam spin spin0 kpsi kphi); auto; try lia; try (left; lia).
    + do 2 eexists. split; [reflexivity|]. split; reflexivity.
    + intros Hs l Hl. apply snf_ok. unfold el_min in Hl. lia.
  - destruct (axisym_vec_fp_inv _ _ _ _ _ _ _ _ EA) as (HJ & Rp & Cp & Lp & _ & _).
    rewrite (dir_vec_fp_ok fexp fpow flg J L N J_min lam spin kpsi kphi); auto; try lia; try (left; lia).
    do 2 eexists. split; [reflexivity|]. split; reflexivity.
Qed.

(*% for lam = 2 they do not raise *)
(*@ C66_default_dilation_never_raises *)
Lemma fp2_dirf_total : forall fexp fpow flg J L N J_min spin spin0, 1 <= L <= 2 ^ 52 -> float_powers L N -> 0 <= J_min < J -> exact_powers fpow J ->
  (exists r, filters_directional_fp fexp fpow flg J L N J_min (fint 2) spin spin0 = Ok r) /\
  (exists r, filters_directional_vectorised_fp fexp fpow flg J L N J_min (fint 2) spin 0 = Ok r).
Proof.
  intros fexp fpow flg J L N J_min spin spin0 HL HF HJ HP.
  destruct (fp2_filters_total fexp fpow J L J_min ltac:(lia) HJ HP) as ((p1 & q1 & E1) & (p2 & q2 & E2)).
  destruct (fp_dirf_return fexp fpow flg J L N J_min (fint 2) spin spin0 HL HF) as [A B].
  destruct (A _ E1) as (x & y & -> & _). destruct (B _ E2) as (x' & y' & -> & _). split; eexists; reflexivity.
Qed.

(*% ** C87: too many directions *)
(*% the directional component: Python converts 2**gamma to a float, and raises if it is too large *)
(*@ C87_component_overflow *)
Lemma fp_dir_overflow : forall flg fexp L N, 1 <= L ->
  ((exists s, tiling_direction_fp flg fexp L N = Ok s) <-> float_powers L N) /\
  (~ float_powers L N -> tiling_direction_fp flg fexp L N = Err OverflowError).
Proof.
  intros flg fexp L N HL. split; [split|].
  - intros [s E]. now apply tiling_fp_inv in E.
  - intros HF. eexists. now apply tiling_fp_ok.
  - intros HF. now apply tiling_fp_err.
Qed.
(*% so both filters raise, where the axisymmetric ones are computed *)
(*@ C87_numpy_directions_overflow *)
Lemma fp_dirf_overflow : forall fexp fpow flg J L N J_min lam spin spin0, 1 <= L -> 0 <= J -> ~ float_powers L N ->
  (forall k, filters_axisym_fp fexp fpow J L J_min lam = Ok k ->
     filters_directional_fp fexp fpow flg J L N J_min lam spin spin0 = Err OverflowError) /\
  (forall k, filters_axisym_vectorised_fp fexp fpow J L J_min lam = Ok k ->
     filters_directional_vectorised_fp fexp fpow flg J L N J_min lam spin 0 = Err OverflowError).
Proof.
  intros fexp fpow flg J L N J_min lam spin spin0 HL HJ HF. split; intros [kpsi kphi] EA.
  - unfold filters_directional_fp. rewrite zeros1_ok, zeros3_ok by lia. cbn [bind]. rewrite EA. cbn [bind]. now rewrite tiling_fp_err.
  - unfold filters_directional_vectorised_fp. change (negb (0 =? 0)) with false. cbv iota. rewrite EA. cbn [bind]. now rewrite tiling_fp_err.
Qed.
Lemma dir_fp_fits fexp fpow flg J L N J_min lam spin spin0 r : 1 <= L ->
  filters_directional_fp fexp fpow flg J L N J_min lam spin spin0 = Ok r \/ filters_directional_vectorised_fp fexp fpow flg J L N J_min lam spin spin0 = Ok r -> float_powers L N.
Proof.
  intros HL [E|E].
  - unfold filters_directional_fp in E. apply bind_inv in E as (z & _ & E). apply bind_inv in E as (z' & _ & E). apply bind_inv in E as ([kpsi kphi] & _ & E).
    apply bind_inv in E as (s & ES & _). now apply tiling_fp_inv in ES.
  - unfold filters_directional_vectorised_fp in E. destruct (negb (spin0 =? 0)); [discriminate|]. apply bind_inv in E as ([kpsi kphi] & _ & E).
    apply bind_inv in E as (s & ES & _). now apply tiling_fp_inv in ES.
Qed.
(*% with lam = 2 the filters are returned exactly if the powers of two are floats *)
(*@ C87_numpy_directions_iff *)
Lemma fp2_dirf_iff : forall fexp fpow flg J L N J_min spin spin0, 1 <= L <= 2 ^ 52 -> 0 <= J_min < J -> exact_powers fpow J ->
  ((exists r, filters_directional_fp fexp fpow flg J L N J_min (fint 2) spin spin0 = Ok r) <-> float_powers L N) /\
  ((exists r, filters_directional_vectorised_fp fexp fpow flg J L N J_min (fint 2) spin 0 = Ok r) <-> float_powers L N).
Proof.
  intros fexp fpow flg J L N J_min spin spin0 HL HJ HP. split; split.
  - intros [r E]. apply (dir_fp_fits fexp fpow flg J L N J_min (fint 2) spin spin0 r); [lia|now left].
  - intros HF. now apply (fp2_dirf_total fexp fpow flg J L N J_min spin spin0).
  - intros [r E]. apply (dir_fp_fits fexp fpow flg J L N J_min (fint 2) spin 0 r); [lia|now right].
  - intros HF. now apply (fp2_dirf_total fexp fpow flg J L N J_min spin 0 HL HF HJ HP).
Qed.

(*% L = 2048 (J = 11), lam = 2: 1025 directions overflow, 1024 do not *)
(*@E C87_example *)
Lemma ex_c87 : exists fexp fpow flg, exact_powers fpow 11 /\ j_max 2048 2 = Ok 11 /\
  filters_directional_fp fexp fpow flg 11 2048 1025 0 (fint 2) 0 0 = Err OverflowError /\
  filters_directional_vectorised_fp fexp fpow flg 11 2048 1025 0 (fint 2) 0 0 = Err OverflowError /\
  (exists r, filters_directional_fp fexp fpow flg 11 2048 1024 0 (fint 2) 0 0 = Ok r).
Proof.
  assert (HP : exact_powers pow2 11) by (apply pow2_exact_powers; lia).
  assert (NF : ~ float_powers 2048 1025) by (unfold float_powers; lia).
  destruct (fp2_filters_total (fun x => x) pow2 11 2048 0 ltac:(lia) ltac:(lia) HP) as ((p1 & q1 & E1) & (p2 & q2 & E2)).
  destruct (fp_dirf_overflow (fun x => x) pow2 (fun x => x) 11 2048 1025 0 (fint 2) 0 0 ltac:(lia) ltac:(lia) NF) as [A B].
  exists (fun x => x), pow2, (fun x => x). split; [exact HP|]. split; [apply j_max_iff; [lia|lra|]; simpl; lra|]. split; [exact (A (p1, q1) E1)|]. split; [exact (B (p2, q2) E2)|].
  exact (proj1 (fp2_dirf_total (fun x => x) pow2 (fun x => x) 11 2048 1024 0 0 0 ltac:(lia) ltac:(left; lia) ltac:(lia) HP)).
Qed.

Lemma cval0 x : B2R (fst (cmul (creal x) (creal (fint 0)))) = 0%R /\ B2R (snd (cmul (creal x) (creal (fint 0)))) = 0%R.
Proof.
  unfold cmul, creal. cbn [fst snd]. rewrite fint0. change (fmul (B754_zero false) (B754_zero false)) with (B754_zero false : f64).
  destruct x as [[]|s| |[] m e B]; split; reflexivity.
Qed.
Lemma sdf_mask flg fexp N l m : sdf flg fexp N l m = creal (fint 0) \/ (1 <= l /\ Z.abs m <= l /\ Z.abs m <= N - 1 /\ Z.even (m - (N - 1)) = true).
Proof.
  unfold sdf. destruct (Z.leb_spec 1 l); cbn [andb]; [|now left]. destruct (Z.leb_spec (Z.abs m) l); cbn [andb]; [|now left].
  destruct (dmask N m) eqn:D; [|now left]. right. unfold dmask in D. apply andb_true_iff in D as [D1 D2].
  apply Z.ltb_lt in D1. apply negb_true_iff, Z.eqb_neq in D2. repeat split; try lia. rewrite Zmod_even in D2.
  replace (N + m) with (m - (N - 1) + 1 + 2 * (N - 1)) in D2 by lia. rewrite Z.even_add_mul_2, Z.even_add in D2.
  destruct (Z.even (m - (N - 1))); [reflexivity|]. now destruct D2.
Qed.
(*% zero below the spins and outside the azimuthal band-limit, exactly and whatever the library *)
(*@ C66_support *)
Lemma fp_dirf_support : forall fexp fpow flg J L N J_min lam spin spin0 psi phi, 1 <= L <= 2 ^ 52 ->
  filters_directional_fp fexp fpow flg J L N J_min lam spin spin0 = Ok (psi, phi) \/
  filters_directional_vectorised_fp fexp fpow flg J L N J_min lam spin spin0 = Ok (psi, phi) ->
  forall l, 0 <= l < L ->
    (B2R (get1 phi l) <> 0%R -> Z.abs spin <= l /\ Z.abs spin0 <= l) /\
    (forall j m, 0 <= j <= J -> Z.abs m < L -> cval (get3 psi j l (L - 1 + m)) <> RtoC 0 ->
       1 <= l /\ Z.abs spin <= l /\ Z.abs spin0 <= l /\ Z.abs m <= l /\ Z.abs m <= N - 1 /\ Z.even (m - (N - 1)) = true).
Proof.
  intros fexp fpow flg J L N J_min lam spin spin0 psi phi HL [ED|ED] l Hl.
  - pose proof ED as ED'. unfold filters_directional_fp in ED'. apply bind_inv in ED' as (z & Z1 & ED'). apply bind_inv in ED' as (z' & Z2 & ED').
    apply bind_inv in ED' as ([kpsi kphi] & EA & _). clear z z' Z1 Z2.
    destruct (axisym_fp_inv _ _ _ _ _ _ _ _ EA) as (HJ & Rp & Cp & Lp & _ & _).
    rewrite (dir_fp_ok fexp fpow flg J L N J_min lam spin spin0 kpsi kphi) in ED; auto; try lia; try (eapply dir_fp_fits; [|eauto]; lia).
    2:{ intros Hs l' Hl'. apply snf_ok. unfold el_min in Hl'. lia. }
    apply Ok_inj in ED. assert (P1 := f_equal fst ED). assert (P2 := f_equal snd ED). cbn [fst snd] in P1, P2. subst psi phi. split.
    + rewrite get1_mk by lia. unfold phif. destruct (Z.leb_spec (el_min spin spin0) l); cbn [andb]; [unfold el_min in *; lia|]. intros Hn. now destruct Hn.
    + intros j m Hj Hm. rewrite get3_mk by lia. replace (L - 1 + m - (L - 1)) with m by lia. unfold psif.
      destruct (Z.leb_spec J_min j); cbn [andb]; [|intros Hn; now destruct Hn]. destruct (Z.leb_spec (el_min spin spin0) l); cbn [andb]; [|intros Hn; now destruct Hn].
      destruct (feq _ _); cbn [negb andb]; [intros Hn; now destruct Hn|]. destruct (Z.leb_spec (Z.abs m) l); cbn [andb]; [|intros Hn; now destruct Hn].
      destruct (sdf_mask flg fexp N l m) as [-> |D]; [intros Hn; now destruct Hn|]. intros _. unfold el_min in *. repeat split; try lia; tauto.
  - pose proof ED as ED'. unfold filters_directional_vectorised_fp in ED'. destruct (Z.eqb_spec spin0 0) as [-> |]; cbn [negb] in ED'; [|discriminate].
    apply bind_inv in ED' as ([kpsi kphi] & EA & _). 
    destruct (axisym_vec_fp_inv _ _ _ _ _ _ _ _ EA) as (HJ & Rp & Cp & Lp & _ & _).
    rewrite (dir_vec_fp_ok fexp fpow flg J L N J_min lam spin kpsi kphi) in ED; auto; try lia; try (eapply dir_fp_fits; [|eauto]; lia).
    apply Ok_inj in ED. assert (P1 := f_equal fst ED). assert (P2 := f_equal snd ED). cbn [fst snd] in P1, P2. subst psi phi. split.
    + rewrite get1_mk by lia. unfold phiv. destruct (Z.leb_spec (el_min spin 0) l); [unfold el_min in *; lia|]. intros Hn. now destruct Hn.
    + intros j m Hj Hm. rewrite get3_mk by lia. replace (L - 1 + m - (L - 1)) with m by lia. unfold psiv.
      destruct (Z.leb_spec (el_min spin 0) l); [|intros Hn; now destruct Hn].
      destruct (sdf_mask flg fexp N l m) as [-> |D].
      * intros Hn. exfalso. apply Hn. unfold cval. destruct (cval0 (fmul (get2 kpsi j l) (wav_weight_vec_fp l))) as [-> ->]. reflexivity.
      * intros _. unfold el_min in *. repeat split; try lia; tauto.
Qed.

(*% the filters are exactly even in the order, so their reality condition holds without error *)
(*@ C66_even_in_the_order *)
Lemma fp_dirf_even : forall fexp fpow flg J L N J_min lam spin spin0 psi phi, accurate_loggamma flg -> relative_exp fexp -> 1 <= L <= 2 ^ 52 -> 1 <= N <= 41 ->
  filters_directional_fp fexp fpow flg J L N J_min lam spin spin0 = Ok (psi, phi) \/
  filters_directional_vectorised_fp fexp fpow flg J L N J_min lam spin spin0 = Ok (psi, phi) ->
  forall j l m, 0 <= j <= J -> 0 <= l < L -> Z.abs m < L -> get3 psi j l (L - 1 - m) = get3 psi j l (L - 1 + m).
Proof.
  intros fexp fpow flg J L N J_min lam spin spin0 psi phi Hg He HL HN [ED|ED] j l m Hj Hl Hm.
  - pose proof ED as ED'. unfold filters_directional_fp in ED'. apply bind_inv in ED' as (z & Z1 & ED'). apply bind_inv in ED' as (z' & Z2 & ED').
    apply bind_inv in ED' as ([kpsi kphi] & EA & _). clear z z' Z1 Z2.
    destruct (axisym_fp_inv _ _ _ _ _ _ _ _ EA) as (HJ & Rp & Cp & Lp & _ & _).
    rewrite (dir_fp_ok fexp fpow flg J L N J_min lam spin spin0 kpsi kphi) in ED; auto; try lia; try (left; lia).
    2:{ intros Hs l' Hl'. apply snf_ok. unfold el_min in Hl'. lia. }
    apply Ok_inj in ED. assert (P1 := f_equal fst ED). cbn [fst snd] in P1. subst psi.
    rewrite !get3_mk by lia. replace (L - 1 - m - (L - 1)) with (- (L - 1 + m - (L - 1))) by lia. unfold psif. now rewrite sdf_opp, Z.abs_opp.
  - pose proof ED as ED'. unfold filters_directional_vectorised_fp in ED'. destruct (Z.eqb_spec spin0 0) as [-> |]; cbn [negb] in ED'; [|discriminate].
    apply bind_inv in ED' as ([kpsi kphi] & EA & _). 
    destruct (axisym_vec_fp_inv _ _ _ _ _ _ _ _ EA) as (HJ & Rp & Cp & Lp & _ & _).
    rewrite (dir_vec_fp_ok fexp fpow flg J L N J_min lam spin kpsi kphi) in ED; auto; try lia; try (left; lia).
    apply Ok_inj in ED. assert (P1 := f_equal fst ED). cbn [fst snd] in P1. subst psi.
    rewrite !get3_mk by lia. replace (L - 1 - m - (L - 1)) with (- (L - 1 + m - (L - 1))) by lia. unfold psiv. now rewrite sdf_opp.
Qed.

Lemma near_both fexp fpow flg J L N J_min lam spin kpsi kphi psi phi : accurate_loggamma flg -> relative_exp fexp -> 1 <= L <= 2 ^ 52 -> 1 <= N <= 41 ->
  (filters_axisym_fp fexp fpow J L J_min lam = Ok (kpsi, kphi) /\ filters_directional_fp fexp fpow flg J L N J_min lam spin 0 = Ok (psi, phi)) \/
  (filters_axisym_vectorised_fp fexp fpow J L J_min lam = Ok (kpsi, kphi) /\ filters_directional_vectorised_fp fexp fpow flg J L N J_min lam spin 0 = Ok (psi, phi)) ->
  0 <= J_min < J /\ near_dir L N J J_min (Z.abs spin) psi phi kpsi kphi /\ (forall l, 0 <= l < L -> rt (get1 kphi l)) /\ (forall j l, 0 <= j <= J -> 0 <= l < L -> rt (get2 kpsi j l)).
Proof.
  intros Hg He HL HN [[EA ED]|[EA ED]].
  - destruct (axisym_fp_inv _ _ _ _ _ _ _ _ EA) as (HJ & _ & _ & _ & T1 & T2). split; [exact HJ|]. split; [|split; [exact T2|exact T1]]. now apply (near_loop fexp fpow flg Hg He J L N J_min lam spin HL HN).
  - destruct (axisym_vec_fp_inv _ _ _ _ _ _ _ _ EA) as (HJ & _ & _ & _ & T1 & T2). split; [exact HJ|]. split; [|split; [exact T2|exact T1]].
    apply (near_dir_weak L N J 0); [lia|]. now apply (near_vec fexp fpow flg Hg He J L N J_min lam spin HL HN).
Qed.

(*% each coefficient against the exact product of the weight, the computed kernel and the exact component *)
(*@ C66_coefficients_accurate *)
Lemma fp_dirf_acc : forall fexp fpow flg J L N J_min lam spin kpsi kphi psi phi s,
  accurate_loggamma flg -> relative_exp fexp -> 1 <= L <= 2 ^ 52 -> 1 <= N <= 41 ->
  (filters_axisym_fp fexp fpow J L J_min lam = Ok (kpsi, kphi) /\ filters_directional_fp fexp fpow flg J L N J_min lam spin 0 = Ok (psi, phi)) \/
  (filters_axisym_vectorised_fp fexp fpow J L J_min lam = Ok (kpsi, kphi) /\ filters_directional_vectorised_fp fexp fpow flg J L N J_min lam spin 0 = Ok (psi, phi)) ->
  tiling_direction L N = Ok s ->
  forall l, Z.abs spin <= l < L ->
    (is_finite (get1 kphi l) = true -> let w := (sqrt ((2 * IZR l + 1) / (4 * PI)) * B2R (get1 kphi l))%R in
       is_finite (get1 phi l) = true /\ (Rabs (B2R (get1 phi l) - w) <= bpow radix2 (-50) * w)%R) /\
    (forall j m, J_min <= j <= J -> Z.abs m < L -> is_finite (get2 kpsi j l) = true ->
       let w := (sqrt ((2 * IZR l + 1) / (8 * PI ^ 2)) * B2R (get2 kpsi j l))%R in
       let z := get3 psi j l (L - 1 + m) in let t := Cmult (RtoC w) (get2 s l (L - 1 + m)) in
       is_finite (fst z) = true /\ is_finite (snd z) = true /\ (Cmod (Cminus (cval z) t) <= bpow radix2 (-49) * Cmod t)%R).
Proof.
  intros fexp fpow flg J L N J_min lam spin kpsi kphi psi phi s Hg He HL HN HB ES l Hl.
  destruct (near_both _ _ _ _ _ _ _ _ _ _ _ _ _ Hg He HL HN HB) as (HJ & [NA NB] & T2 & T1). pose proof u1_pos as U.
  assert (EC : (2 * IZR l + 1)%R = IZR (2 * l + 1)) by (rewrite plus_IZR, mult_IZR; reflexivity).
  unfold tiling_direction in ES. rewrite tiling_direction_with_ok in ES by (try apply loggamma_ok; lia). apply Ok_inj in ES. subst s. rewrite EC.
  assert (U50 : (7 * u1 <= bpow radix2 (-50))%R) by (unfold u1, eps; change (bpow radix2 (-50)) with (/ 1125899906842624)%R; lra).
  assert (U49 : (13 * u1 <= bpow radix2 (-49))%R) by (unfold u1, eps; change (bpow radix2 (-49)) with (/ 562949953421312)%R; lra).
  split.
  - intros F. cbv zeta. fold (cphi l). destruct (NA l Hl F) as [A B]. split; [exact A|]. pose proof (apx_abs (7 / 2 * u1) _ _ ltac:(lra) B) as H.
    assert (W : (0 <= cphi l * B2R (get1 kphi l))%R) by apply B. eapply Rle_trans; [exact H|]. apply Rmult_le_compat_r; [exact W|lra].
  - intros j m Hj Hm F. cbv zeta. replace (8 * PI ^ 2)%R with (8 * PI * PI)%R by ring. fold (cpsi l).
    destruct (NB j l m Hj Hl Hm F) as (A & B & v & C & D). split; [exact A|]. split; [exact B|]. rewrite D.
    unfold s_arr. rewrite get2_mk by lia. replace (L - 1 + m - (L - 1)) with m by lia. rewrite (sd_nu N l m).
    set (w := (cpsi l * B2R (get2 kpsi j l))%R) in *. set (r := Cmod (sd N l m)) in *.
    replace (Cmult (RtoC w) (Cmult (nu N) (RtoC r))) with (Cmult (nu N) (RtoC (w * r))) by (rewrite RtoC_mult; ring).
    replace (Cminus (Cmult (nu N) (RtoC v)) (Cmult (nu N) (RtoC (w * r)))) with (Cmult (nu N) (RtoC (v - w * r))) by (rewrite RtoC_minus; ring).
    rewrite !Cmod_nur. assert (W : (0 <= w * r)%R) by apply C. rewrite (Rabs_pos_eq (w * r)) by exact W.
    eapply Rle_trans; [apply (apx_abs (13 / 2 * u1) _ _ ltac:(lra) C)|]. apply Rmult_le_compat_r; [exact W|lra].
Qed.

Lemma dirf_apx fexp fpow flg J L N J_min lam spin kpsi kphi psi phi l :
  accurate_loggamma flg -> relative_exp fexp -> 1 <= L <= 2 ^ 52 -> 1 <= N <= 41 ->
  (filters_axisym_fp fexp fpow J L J_min lam = Ok (kpsi, kphi) /\ filters_directional_fp fexp fpow flg J L N J_min lam spin 0 = Ok (psi, phi)) \/
  (filters_axisym_vectorised_fp fexp fpow J L J_min lam = Ok (kpsi, kphi) /\ filters_directional_vectorised_fp fexp fpow flg J L N J_min lam spin 0 = Ok (psi, phi)) ->
  Z.abs spin <= l < L -> is_finite (get1 kphi l) = true -> (forall j, J_min <= j <= J -> is_finite (get2 kpsi j l) = true) ->
  1 <= l \/ (forall j, J_min <= j <= J -> B2R (get2 kpsi j l) = 0%R) ->
  apx (13 * u1) (fp_dir_total L psi phi J_min J l) (fp_total kpsi kphi J_min J l).
Proof.
  intros Hg He HL HN HB Hl F0 F1 Hl1.
  destruct (near_both _ _ _ _ _ _ _ _ _ _ _ _ _ Hg He HL HN HB) as (HJ & [NA NB] & T2 & T1). pose proof u1_pos as U. pose proof pi34 as P4.
  assert (EC : (2 * IZR l + 1)%R = IZR (2 * l + 1)) by (rewrite plus_IZR, mult_IZR; reflexivity).
  assert (C0 : (0 < IZR (2 * l + 1))%R) by (apply IZR_lt; lia).
  unfold fp_dir_total, dir_total, fp_total. rewrite get1_mk by lia. rewrite EC. apply apx_add.
  - destruct (NA l Hl F0) as [_ B]. apply apx_sq in B.
    replace (B2R (get1 kphi l) ^ 2)%R with (4 * PI / IZR (2 * l + 1) * (cphi l * B2R (get1 kphi l)) ^ 2)%R.
    2:{ rewrite Rpow_mult_distr. unfold cphi. rewrite pow2_sqrt by (left; apply Rdiv_lt_0_compat; lra). field. split; lra. }
    replace (13 * u1)%R with (6 * u1 + (2 * (7 / 2 * u1)))%R by field. apply apx_mul; [|exact B]. apply apx_refl; [lra|]. left. apply Rdiv_lt_0_compat; lra.
  - replace (13 * u1)%R with (0 + 13 * u1)%R by ring.
    replace (zrsum (J - J_min + 1) (fun i => B2R (get2 kpsi (J_min + i) l) ^ 2)%R)
      with (8 * PI ^ 2 / IZR (2 * l + 1) * zrsum (J - J_min + 1) (fun i => (cpsi l * B2R (get2 kpsi (J_min + i) l)) ^ 2)%R)%R.
    2:{ rewrite zrsum_mul. apply zrsum_ext. intros i Hi. rewrite Rpow_mult_distr. unfold cpsi. rewrite pow2_sqrt.
        - field. split; lra.
        - left. apply Rdiv_lt_0_compat; [exact C0|]. pose proof pi8_rng. lra. }
    apply apx_mul; [apply apx_refl; [lra|]; left; apply Rdiv_lt_0_compat; [|exact C0]; nra|].
    rewrite sumZ_zrsum by lia. replace (J + 1 - J_min) with (J - J_min + 1) by lia. apply apx_zrsum. intros i Hi.
    rewrite sumZ_zrsum by lia. replace (l + 1 - - l) with (2 * l + 1) by lia.
    replace ((cpsi l * B2R (get2 kpsi (J_min + i) l)) ^ 2)%R
      with (zrsum (2 * l + 1) (fun k => (cpsi l * B2R (get2 kpsi (J_min + i) l)) ^ 2 * Cmod (sd N l (k - l)) ^ 2)%R).
    2:{ rewrite <- zrsum_mul. destruct Hl1 as [Hl1|Hl1]; [rewrite (sd_norm N l) by lia; ring|]. rewrite Hl1 by lia. ring. }
    apply apx_zrsum. intros k Hk. rewrite get3_mk by lia.
    destruct (NB (J_min + i) l (- l + k) ltac:(lia) Hl ltac:(lia) (F1 (J_min + i) ltac:(lia))) as (_ & _ & v & C & D). cbv zeta in D. rewrite D, Cmod_nur, pow2_abs.
    replace (13 * u1)%R with (2 * (13 / 2 * u1))%R by field. replace (- l + k) with (k - l) in C by lia.
    rewrite <- Rpow_mult_distr. now apply apx_sq.
Qed.

(*% the normalised squares of the directional filters sum to the same as those of the axisymmetric filters *)
(*@ C66_total *)
Lemma fp_dirf_total : forall fexp fpow flg J L N J_min lam spin kpsi kphi psi phi,
  accurate_loggamma flg -> relative_exp fexp -> 1 <= L <= 2 ^ 52 -> 1 <= N <= 41 ->
  (filters_axisym_fp fexp fpow J L J_min lam = Ok (kpsi, kphi) /\ filters_directional_fp fexp fpow flg J L N J_min lam spin 0 = Ok (psi, phi)) \/
  (filters_axisym_vectorised_fp fexp fpow J L J_min lam = Ok (kpsi, kphi) /\ filters_directional_vectorised_fp fexp fpow flg J L N J_min lam spin 0 = Ok (psi, phi)) ->
  forall l, 1 <= l -> Z.abs spin <= l < L -> is_finite (get1 kphi l) = true -> (forall j, J_min <= j <= J -> is_finite (get2 kpsi j l) = true) ->
    (Rabs (fp_dir_total L psi phi J_min J l - fp_total kpsi kphi J_min J l) <= bpow radix2 (-48) * fp_total kpsi kphi J_min J l)%R.
Proof.
  intros fexp fpow flg J L N J_min lam spin kpsi kphi psi phi Hg He HL HN HB l Hl1 Hl F0 F1. pose proof u1_pos as U.
  assert (U48 : (26 * u1 <= bpow radix2 (-48))%R) by (unfold u1, eps; change (bpow radix2 (-48)) with (/ 281474976710656)%R; lra).
  pose proof (dirf_apx fexp fpow flg J L N J_min lam spin kpsi kphi psi phi l Hg He HL HN HB Hl F0 F1 (or_introl Hl1)) as A.
  assert (W : (0 <= fp_total kpsi kphi J_min J l)%R) by apply A.
  eapply Rle_trans; [apply (apx_abs (13 * u1) _ _ ltac:(lra) A)|]. apply Rmult_le_compat_r; [exact W|lra].
Qed.

(** *** the default dilation *)
Section TWO.
Variables (fexp : f64 -> f64) (fpow : f64 -> Z -> f64) (J L J_min : Z) (kpsi : arr2 f64) (kphi : arr1 f64).
Hypothesis (HL : 1 <= L <= 2 ^ 53) (Hf : accurate_exp fexp) (HP : exact_powers fpow J) (EJ : j_max L 2 = Ok J).

Lemma zero_at_0 k : k_lam_fp fexp fpow J L (fint 2) 300 = Ok k -> forall j, 0 <= j <= J ->
  fsub (get2 k (j + 1) 0) (get2 k j 0) = fint 0.
Proof.
  intros Ek j Hj. pose proof (exact_incr fpow J ltac:(lia) HP) as HI.
  rewrite (kl_one fexp fpow J L (fint 2) k Ek ltac:(lia) HI (j + 1) 0), (kl_one fexp fpow J L (fint 2) k Ek ltac:(lia) HI j 0); try lia; [reflexivity| |].
  - destruct (HP (j - 1) ltac:(lia)) as [_ ->]. apply bpow_gt_0.
  - destruct (HP (j + 1 - 1) ltac:(lia)) as [_ ->]. apply bpow_gt_0.
Qed.
Lemma fin2 : filters_axisym_fp fexp fpow J L J_min (fint 2) = Ok (kpsi, kphi) \/ filters_axisym_vectorised_fp fexp fpow J L J_min (fint 2) = Ok (kpsi, kphi) ->
  0 <= J_min < J /\ (forall l, 0 <= l < L -> is_finite (get1 kphi l) = true) /\
  (forall j l, J_min <= j <= J -> 0 <= l < L -> is_finite (get2 kpsi j l) = true) /\
  (forall j, J_min <= j <= J -> B2R (get2 kpsi j 0) = 0%R).
Proof.
  pose proof (k_lam_ok 2 ltac:(lra) L 300 J ltac:(lia) ltac:(lia) EJ) as Er. set (r := mk2 (J + 2) L (kv 2 300)) in *.
  intros [EF|EF].
  - pose proof EF as EF'. apply loop_fp_inv in EF' as (HJ & k & Ek & _ & _ & _ & A & _ & D). split; [exact HJ|]. split; [|split].
    + intros l Hl. rewrite D by exact Hl. destruct (k_fin fexp fpow J L k r HL Hf HP EJ Ek Er J_min l ltac:(lia) Hl) as (F & P & _). now apply fsqrt_ok.
    + intros j l Hj Hl. assert (Hl0 : 0 <= l) by lia. revert l Hl0 Hl.
      apply (Z_lt_induction (fun l => 0 <= l < L -> is_finite (get2 kpsi j l) = true)). intros l IH Hl.
      destruct (flt (fsub (get2 k (j + 1) l) (get2 k j l)) (fint 0)) eqn:N.
      * assert (l <> 0) by (intros ->; rewrite (zero_at_0 k Ek) in N by lia; discriminate).
        rewrite (loop_fp_prev _ _ _ _ _ _ _ _ k EF Ek j l Hj ltac:(lia) N). apply IH; lia.
      * rewrite A by auto. destruct (d_acc fexp fpow J L k r HL Hf HP EJ Ek Er j l ltac:(lia) Hl) as (F & _ & _).
        apply fsqrt_ok; [exact F|]. apply (flt_false_inv _ (fint 0)) in N; [|exact F|reflexivity]. exact N.
    + intros j Hj. pose proof (A j 0 Hj ltac:(lia)) as A0. cbv zeta in A0. rewrite (zero_at_0 k Ek) in A0 by lia. rewrite A0; reflexivity.
  - pose proof EF as EF'. apply vec_fp_inv in EF' as (HJ & k & Ek & _ & _ & _ & A & D). split; [exact HJ|]. split; [|split].
    + intros l Hl. rewrite D by exact Hl. destruct (k_fin fexp fpow J L k r HL Hf HP EJ Ek Er J_min l ltac:(lia) Hl) as (F & P & _). now apply fsqrt_ok.
    + intros j l Hj Hl. rewrite A by lia. destruct (d_acc fexp fpow J L k r HL Hf HP EJ Ek Er j l ltac:(lia) Hl) as (F & _ & _).
      unfold fclip. destruct (flt _ _) eqn:N; [reflexivity|]. apply fsqrt_ok; [exact F|]. apply (flt_false_inv _ (fint 0)) in N; [|exact F|reflexivity]. exact N.
    + intros j Hj. rewrite A by lia. rewrite (zero_at_0 k Ek) by lia. reflexivity.
Qed.
End TWO.

Lemma widen T t a b : (apx (13 * u1) t T)%R -> (1 - bpow radix2 (-51) <= T <= 1 + a)%R -> (0 <= a <= 1)%R -> (bpow radix2 (-47) <= b)%R -> (1 - bpow radix2 (-47) <= t <= 1 + a + b)%R.
Proof.
  intros A HT Ha Hb. pose proof u1_pos. pose proof (apx_abs (13 * u1) _ _ ltac:(lra) A) as H1. apply Rabs_le_inv in H1.
  assert (U : (26 * u1 <= / 281474976710656)%R) by (unfold u1, eps; lra).
  change (bpow radix2 (-51)) with (/ 2251799813685248)%R in *. change (bpow radix2 (-47)) with (/ 140737488355328)%R in *.
  assert (M : (2 * (13 * u1) * T <= / 281474976710656 * (1 + a))%R) by (apply Rmult_le_compat; lra).
  assert (M2 : (2 * (13 * u1) * T <= 2 * (13 * u1) * T)%R) by lra.
  split.
  - assert ((1 - 26 * u1) * (1 - / 2251799813685248) <= (1 - 26 * u1) * T)%R by (apply Rmult_le_compat_l; lra). lra.
  - lra.
Qed.

(*% with lam = 2 the directional filters are admissible up to the quadrature and rounding errors *)
(*@ C66_looped_filters_admissible *)
Lemma fp2_dirf_adm : forall fexp fpow flg J L N J_min spin psi phi, 1 <= L <= 2 ^ 52 -> 1 <= N <= 41 ->
  accurate_loggamma flg -> relative_exp fexp -> accurate_exp fexp -> exact_powers fpow J -> j_max L 2 = Ok J ->
  filters_directional_fp fexp fpow flg J L N J_min (fint 2) spin 0 = Ok (psi, phi) ->
  forall l, Z.abs spin <= l < L ->
    (1 - bpow radix2 (-47) <= fp_dir_total L psi phi J_min J l <= 1 + 3 * quad_error 2 300 + bpow radix2 (-31))%R.
Proof.
  intros fexp fpow flg J L N J_min spin psi phi HL HN Hg Hr Hf HP EJ ED l Hl.
  pose proof ED as ED'. unfold filters_directional_fp in ED'. apply bind_inv in ED' as (z & Z1 & ED'). apply bind_inv in ED' as (z' & Z2 & ED').
  apply bind_inv in ED' as ([kpsi kphi] & EA & _). clear z z' Z1 Z2.
  destruct (fin2 fexp fpow J L J_min kpsi kphi ltac:(lia) Hf HP EJ (or_introl EA)) as (HJ & F0 & F1 & Z0).
  pose proof (fp2_adm_loop fexp fpow J L J_min kpsi kphi ltac:(lia) Hf HP EJ EA l ltac:(lia)) as T.
  assert (A : apx (13 * u1) (fp_dir_total L psi phi J_min J l) (fp_total kpsi kphi J_min J l)).
  { assert (F1' : forall j, J_min <= j <= J -> is_finite (get2 kpsi j l) = true) by (intros; apply F1; lia).
    assert (O : 1 <= l \/ (forall j, J_min <= j <= J -> B2R (get2 kpsi j l) = 0%R)) by (destruct (Z.eq_dec l 0) as [-> |]; [right; exact Z0|left; lia]).
    exact (dirf_apx fexp fpow flg J L N J_min (fint 2) spin kpsi kphi psi phi l Hg Hr HL HN (or_introl (conj EA ED)) Hl (F0 l ltac:(lia)) F1' O). }
  pose proof quad_err2. replace (bpow radix2 (-31)) with (bpow radix2 (-32) + bpow radix2 (-32))%R by (change (bpow radix2 (-32)) with (/ 4294967296)%R; change (bpow radix2 (-31)) with (/ 2147483648)%R; lra).
  rewrite <- Rplus_assoc, (Rplus_assoc 1). rewrite (Rplus_assoc 1) in T. apply (widen _ _ _ _ A T).
  - change (bpow radix2 (-32)) with (/ 4294967296)%R. lra.
  - apply bpow_le. lia.
Qed.
(*@ C66_vectorised_filters_admissible *)
Lemma fp2_dirf_adm_vec : forall fexp fpow flg J L N J_min spin psi phi, 1 <= L <= 2 ^ 52 -> 1 <= N <= 41 ->
  accurate_loggamma flg -> relative_exp fexp -> accurate_exp fexp -> exact_powers fpow J -> j_max L 2 = Ok J ->
  filters_directional_vectorised_fp fexp fpow flg J L N J_min (fint 2) spin 0 = Ok (psi, phi) ->
  forall l, Z.abs spin <= l < L ->
    (1 - bpow radix2 (-47) <= fp_dir_total L psi phi J_min J l <= 1 + quad_error 2 300 + bpow radix2 (-33))%R.
Proof.
  intros fexp fpow flg J L N J_min spin psi phi HL HN Hg Hr Hf HP EJ ED l Hl.
  pose proof ED as ED'. unfold filters_directional_vectorised_fp in ED'. change (negb (0 =? 0)) with false in ED'. cbv iota in ED'.
  apply bind_inv in ED' as ([kpsi kphi] & EA & _).
  destruct (fin2 fexp fpow J L J_min kpsi kphi ltac:(lia) Hf HP EJ (or_intror EA)) as (HJ & F0 & F1 & Z0).
  pose proof (fp2_adm fexp fpow J L J_min kpsi kphi ltac:(lia) Hf HP EJ EA l ltac:(lia)) as T.
  assert (A : apx (13 * u1) (fp_dir_total L psi phi J_min J l) (fp_total kpsi kphi J_min J l)).
  { assert (F1' : forall j, J_min <= j <= J -> is_finite (get2 kpsi j l) = true) by (intros; apply F1; lia).
    assert (O : 1 <= l \/ (forall j, J_min <= j <= J -> B2R (get2 kpsi j l) = 0%R)) by (destruct (Z.eq_dec l 0) as [-> |]; [right; exact Z0|left; lia]).
    exact (dirf_apx fexp fpow flg J L N J_min (fint 2) spin kpsi kphi psi phi l Hg Hr HL HN (or_intror (conj EA ED)) Hl (F0 l ltac:(lia)) F1' O). }
  pose proof quad_err2. replace (bpow radix2 (-33)) with (bpow radix2 (-34) + bpow radix2 (-34))%R by (change (bpow radix2 (-34)) with (/ 17179869184)%R; change (bpow radix2 (-33)) with (/ 8589934592)%R; lra).
  rewrite <- Rplus_assoc, (Rplus_assoc 1). rewrite (Rplus_assoc 1) in T. apply (widen _ _ _ _ A T).
  - change (bpow radix2 (-34)) with (/ 17179869184)%R. lra.
  - apply bpow_le. lia.
Qed.

(*% and every coefficient is a number *)
(*@ C66_default_dilation_finite *)
Lemma fp2_dirf_finite : forall fexp fpow flg J L N J_min spin psi phi, 1 <= L <= 2 ^ 52 -> 1 <= N <= 41 ->
  accurate_loggamma flg -> relative_exp fexp -> accurate_exp fexp -> exact_powers fpow J -> j_max L 2 = Ok J ->
  filters_directional_fp fexp fpow flg J L N J_min (fint 2) spin 0 = Ok (psi, phi) \/
  filters_directional_vectorised_fp fexp fpow flg J L N J_min (fint 2) spin 0 = Ok (psi, phi) ->
  forall l, Z.abs spin <= l < L ->
    is_finite (get1 phi l) = true /\
    forall j m, J_min <= j <= J -> Z.abs m < L -> is_finite (fst (get3 psi j l (L - 1 + m))) = true /\ is_finite (snd (get3 psi j l (L - 1 + m))) = true.
Proof.
  intros fexp fpow flg J L N J_min spin psi phi HL HN Hg Hr Hf HP EJ ED l Hl.
  assert (X : exists kpsi kphi, (filters_axisym_fp fexp fpow J L J_min (fint 2) = Ok (kpsi, kphi) \/ filters_axisym_vectorised_fp fexp fpow J L J_min (fint 2) = Ok (kpsi, kphi)) /\
    near_dir L N J J_min (Z.abs spin) psi phi kpsi kphi).
  { destruct ED as [ED|ED].
    - pose proof ED as ED'. unfold filters_directional_fp in ED'. apply bind_inv in ED' as (z & Z1 & ED'). apply bind_inv in ED' as (z' & Z2 & ED').
      apply bind_inv in ED' as ([kpsi kphi] & EA & _). exists kpsi, kphi. split; [left; exact EA|].
      apply (near_both fexp fpow flg J L N J_min (fint 2) spin kpsi kphi psi phi Hg Hr HL HN (or_introl (conj EA ED))).
    - pose proof ED as ED'. unfold filters_directional_vectorised_fp in ED'. change (negb (0 =? 0)) with false in ED'. cbv iota in ED'.
      apply bind_inv in ED' as ([kpsi kphi] & EA & _). exists kpsi, kphi. split; [right; exact EA|].
      apply (near_both fexp fpow flg J L N J_min (fint 2) spin kpsi kphi psi phi Hg Hr HL HN (or_intror (conj EA ED))). }
  destruct X as (kpsi & kphi & EA & NA & NB).
  destruct (fin2 fexp fpow J L J_min kpsi kphi ltac:(lia) Hf HP EJ EA) as (HJ & F0 & F1 & _). split.
  - apply (NA l Hl (F0 l ltac:(lia))).
  - intros j m Hj Hm. destruct (NB j l m Hj Hl Hm (F1 j l Hj ltac:(lia))) as (A & B & _). split; [exact A|exact B].
Qed.

(*% lam = 2, L = 5, N = 3, spin 1: a library meets all the hypotheses, and the filters are returned *)
(*@E C66_example *)
Lemma ex_fp_dirf : exists fexp fpow flg psi phi vpsi vphi, accurate_loggamma flg /\ relative_exp fexp /\ accurate_exp fexp /\ exact_powers fpow 3 /\ j_max 5 2 = Ok 3 /\
  filters_directional_fp fexp fpow flg 3 5 3 0 (fint 2) 1 0 = Ok (psi, phi) /\
  filters_directional_vectorised_fp fexp fpow flg 3 5 3 0 (fint 2) 1 0 = Ok (vpsi, vphi) /\
  (999 / 1000 <= fp_dir_total 5 vpsi vphi 0 3 2 <= 1 + 1 / 100)%R /\ is_finite (get1 vphi 2) = true.
Proof.
  destruct j_max_5_2 as (EJ & _). pose proof (pow2_exact_powers 3 ltac:(lia)) as HP.
  destruct (fp2_dirf_total near_exp pow2 near_lg 3 5 3 0 1 0 ltac:(lia) ltac:(left; lia) ltac:(lia) HP) as [([psi phi] & E1) ([vpsi vphi] & E2)].
  pose proof (fp2_dirf_adm_vec near_exp pow2 near_lg 3 5 3 0 1 vpsi vphi ltac:(lia) ltac:(lia) near_loggamma near_relative near_accurate HP EJ E2 2 ltac:(lia)) as T.
  pose proof (fp2_dirf_finite near_exp pow2 near_lg 3 5 3 0 1 vpsi vphi ltac:(lia) ltac:(lia) near_loggamma near_relative near_accurate HP EJ (or_intror E2) 2 ltac:(lia)) as [F _].
  exists near_exp, pow2, near_lg, psi, phi, vpsi, vphi. split; [apply near_loggamma|]. split; [apply near_relative|]. split; [apply near_accurate|].
  split; [exact HP|]. split; [exact EJ|]. split; [exact E1|]. split; [exact E2|]. split; [|exact F].
  pose proof quad_err2. change (bpow radix2 (-47)) with (/ 140737488355328)%R in T. change (bpow radix2 (-33)) with (/ 8589934592)%R in T. lra.
Qed.
