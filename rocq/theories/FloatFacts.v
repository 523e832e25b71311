(** Facts about the binary64 models *)

From Coq Require Import ZArith Reals List Bool Lia Lra Psatz.
From Flocq Require Import Core Relative IEEE754.BinarySingleNaN.
From Verif Require Import Py PyFacts ModelSamples SamplesFacts ModelFilters FiltersFacts ModelFloat FloatProps.
Import ListNotations.
Open Scope Z_scope.

(** ** ints and comparisons *)
Lemma fint_ok z : Z.abs z <= 2 ^ 53 -> is_finite (fint z) = true /\ B2R (fint z) = IZR z.
Proof.
  intros Hz. pose proof (binary_normalize_correct 53 1024 gt53 lt53 mode_NE z 0 false) as H.
  cbv zeta in H. change (binary_normalize 53 1024 gt53 lt53 mode_NE z 0 false) with (fint z) in H.
  assert (E : F2R (Float radix2 z 0) = IZR z) by (unfold F2R; cbn; lra). rewrite E in H.
  rewrite round_generic in H; [|typeclasses eauto|apply format_int; exact Hz].
  rewrite Rlt_bool_true in H; [tauto|].
  rewrite <- abs_IZR. apply Rle_lt_trans with (IZR (2 ^ 53)); [apply IZR_le; exact Hz|].
  change (2 ^ 53) with (Zpower radix2 53). rewrite IZR_Zpower by lia. apply bpow_lt. lia.
Qed.
Lemma fint_fin z : Z.abs z <= 2 ^ 53 -> is_finite (fint z) = true. Proof. apply fint_ok. Qed.
Lemma fint_B2R z : Z.abs z <= 2 ^ 53 -> B2R (fint z) = IZR z. Proof. apply fint_ok. Qed.

Lemma flt_iff x y : is_finite x = true -> is_finite y = true -> (flt x y = true <-> (B2R x < B2R y)%R).
Proof.
  intros Fx Fy. unfold flt. rewrite Bltb_correct by assumption.
  destruct (Rlt_bool_spec (B2R x) (B2R y)); split; intros; try reflexivity; try discriminate; lra.
Qed.
Lemma flt_true x y : is_finite x = true -> is_finite y = true -> (B2R x < B2R y)%R -> flt x y = true.
Proof. intros. now apply flt_iff. Qed.
Lemma flt_false x y : is_finite x = true -> is_finite y = true -> (B2R y <= B2R x)%R -> flt x y = false.
Proof. intros Fx Fy H. apply not_true_iff_false. rewrite flt_iff by assumption. lra. Qed.
Lemma feq_iff x y : is_finite x = true -> is_finite y = true -> (feq x y = true <-> (B2R x = B2R y)%R).
Proof.
  intros Fx Fy. unfold feq. rewrite Beqb_correct by assumption.
  destruct (Req_bool_spec (B2R x) (B2R y)); split; intros; try reflexivity; try discriminate; congruence.
Qed.
Lemma feq_false x y : is_finite x = true -> is_finite y = true -> (B2R x <> B2R y)%R -> feq x y = false.
Proof. intros Fx Fy H. apply not_true_iff_false. now rewrite feq_iff by assumption. Qed.
Lemma fint0 : fint 0 = B754_zero false. Proof. reflexivity. Qed.

Lemma fceil_inv x z : fceil x = Ok z -> is_finite x = true /\ z = rceil (B2R x).
Proof. destruct x; cbn; try discriminate; intros [= <-]; auto. Qed.
Lemma fceil_ok x : is_finite x = true -> fceil x = Ok (rceil (B2R x)).
Proof. destruct x; cbn; try discriminate; auto. Qed.

(** ** k_lam *)
Lemma k_lam_fp_inv fexp fpow J L lam n k : k_lam_fp fexp fpow J L lam n = Ok k ->
  exists il c, pydiv (fint 1) lam = Ok il /\ part_scaling_fn_fp fexp il (fint 1) n lam = Ok c /\
    0 <= J + 2 /\ 0 <= L /\ rows k = J + 2 /\ cols k = L /\
    forall j l, 0 <= j < J + 2 -> 0 <= l < L -> k_entry_fp fexp fpow j l lam n c = Ok (get2 k j l).
Proof.
  unfold k_lam_fp. intros H. apply bind_inv in H as (il & Hil & H). apply bind_inv in H as (c & Hc & H).
  unfold zeros2 in H. destruct ((0 <=? J + 2) && (0 <=? L)) eqn:E; [|discriminate].
  apply andb_true_iff in E as [E1%Z.leb_le E2%Z.leb_le]. cbn [bind] in H.
  set (P := fun (j : Z) (k : arr2 f64) => rows k = J + 2 /\ cols k = L /\
    forall j' l, 0 <= j' < j -> 0 <= l < L -> k_entry_fp fexp fpow j' l lam n c = Ok (get2 k j' l)).
  assert (HP : P (J + 2) k).
  { refine (for_inv P 0 (J + 2) _ _ k _ _ _ H); [lia| |].
    - split; [reflexivity|]. split; [reflexivity|]. lia.
    - intros j a b Hj (A & B & D) Hb.
      set (Q := fun (m : Z) (k : arr2 f64) => rows k = J + 2 /\ cols k = L /\
        (forall j' l, 0 <= j' < j -> 0 <= l < L -> k_entry_fp fexp fpow j' l lam n c = Ok (get2 k j' l)) /\
        (forall l, 0 <= l < m -> k_entry_fp fexp fpow j l lam n c = Ok (get2 k j l))).
      assert (HQ : Q L b).
      { refine (for_inv Q 0 L _ _ b _ _ _ Hb); [lia| |].
        - split; [exact A|]. split; [exact B|]. split; [exact D|]. lia.
        - intros m a' b' Hm (A' & B' & C' & D') Hb'. apply bind_inv in Hb' as (v & Hv & Hb').
          rewrite wr2_ok in Hb' by lia. apply Ok_inj in Hb' as <-. split; [exact A'|]. split; [exact B'|].
          split.
          + intros j' l Hj' Hl. rewrite get2_mk by lia. destruct (Z.eqb_spec j' j); [lia|]. cbn [andb]. auto.
          + intros l Hl. rewrite get2_mk by lia. rewrite Z.eqb_refl. cbn [andb].
            destruct (Z.eqb_spec l m) as [->|]; [exact Hv|]. apply D'. lia. }
      destruct HQ as (A' & B' & C' & D'). split; [exact A'|]. split; [exact B'|].
      intros j' l Hj' Hl. destruct (Z.eq_dec j' j) as [->|]; [apply D'; lia|apply C'; lia]. }
  destruct HP as (A & B & D). exists il, c. repeat (split; [assumption|]). exact D.
Qed.

(** ** the filters *)
Definition fclip (x : f64) : f64 := if flt x (fint 0) then fint 0 else x.

Lemma sl_len_drop J : 0 <= J -> sl_len (J + 2) {| s_lo := None; s_hi := Some (-1); s_st := 1 |} = J + 1.
Proof.
  intros HJ. unfold sl_len, sl_start, sl_stop, sl_bound, range_len. cbn [s_lo s_hi s_st].
  change (-1 <? 0) with true. cbv iota. replace (Z.max 0 (-1 + (J + 2))) with (J + 1) by lia.
  destruct (Z.ltb_spec 0 (J + 1)); [|lia]. rewrite Z.div_1_r. lia.
Qed.
Lemma sl_len_full L : 0 <= L -> sl_len L full = L.
Proof.
  intros HL. unfold sl_len, sl_start, sl_stop, sl_bound, range_len. cbn [s_lo s_hi s_st full].
  destruct (Z.ltb_spec 0 L); [|lia]. rewrite Z.div_1_r. lia.
Qed.

Lemma vec_fp_inv fexp fpow J L J_min lam psi phi : filters_axisym_vectorised_fp fexp fpow J L J_min lam = Ok (psi, phi) ->
  0 <= J_min < J /\ exists k, k_lam_fp fexp fpow J L lam 300 = Ok k /\ rows psi = J + 1 /\ cols psi = L /\ len1 phi = L /\
    (forall j l, 0 <= j <= J -> 0 <= l < L -> get2 psi j l = fsqrt (fclip (fsub (get2 k (j + 1) l) (get2 k j l)))) /\
    (forall l, 0 <= l < L -> get1 phi l = fsqrt (get2 k J_min l)).
Proof.
  unfold filters_axisym_vectorised_fp. destruct ((J <=? J_min) || (J_min <? 0)) eqn:E; [discriminate|].
  apply orb_false_iff in E as [E1%Z.leb_gt E2%Z.ltb_ge]. intros H.
  apply bind_inv in H as (k & Hk & H). apply bind_inv in H as (kr & Hkr & H).
  destruct (k_lam_fp_inv _ _ _ _ _ _ _ Hk) as (il & c & _ & _ & HJ & HL & Rk & Ck & _).
  unfold row2 in Hkr. rewrite idx_ok in Hkr by lia. apply Ok_inj in Hkr as <-. injection H as <- <-.
  split; [lia|]. exists k. split; [exact Hk|].
  assert (SL : sl_len (J + 2) {| s_lo := None; s_hi := Some (-1); s_st := 1 |} = J + 1) by (apply sl_len_drop; lia).
  assert (SF : sl_len L full = L) by (apply sl_len_full; lia).
  cbn [rows cols len1 map2 map1 droplast slice2 mk2 mk1]. rewrite !Rk, !Ck, SL, SF.
  split; [reflexivity|]. split; [reflexivity|]. split; [reflexivity|]. split.
  - intros j l Hj Hl. unfold map2, droplast, slice2. cbn [rows cols mk2]. rewrite ?Rk, ?Ck, ?SL, ?SF.
    rewrite !get2_mk by lia. unfold fclip.
    assert (A0 : sl_at (J + 2) {| s_lo := None; s_hi := Some (-1); s_st := 1 |} j = j)
      by (unfold sl_at, sl_start, sl_bound; cbn [s_lo s_st full]; lia).
    assert (A1 : sl_at L full l = l) by (unfold sl_at, sl_start, sl_bound; cbn [s_lo s_st full]; lia).
    rewrite A0, A1. rewrite !get2_mk by lia. unfold roll_up. rewrite ?Rk, ?Ck, ?get2_mk by lia.
    rewrite !inb_in by lia. cbn [andb]. rewrite Z.mod_small by lia. reflexivity.
  - intros l Hl. unfold map1. cbn [len1 mk1]. rewrite ?Ck. rewrite !get1_mk by lia. reflexivity.
Qed.

Lemma loop_fp_inv fexp fpow J L J_min lam psi phi : filters_axisym_fp fexp fpow J L J_min lam = Ok (psi, phi) ->
  0 <= J_min < J /\ exists k, k_lam_fp fexp fpow J L lam 300 = Ok k /\ rows psi = J + 1 /\ cols psi = L /\ len1 phi = L /\
    (forall j l, J_min <= j <= J -> 0 <= l < L -> let d := fsub (get2 k (j + 1) l) (get2 k j l) in
       flt d (fint 0) = false -> get2 psi j l = fsqrt d) /\
    (forall j l, 0 <= j < J_min -> 0 <= l < L -> get2 psi j l = fint 0) /\
    (forall l, 0 <= l < L -> get1 phi l = fsqrt (get2 k J_min l)).
Proof.
  unfold filters_axisym_fp. destruct ((J <=? J_min) || (J_min <? 0)) eqn:E; [discriminate|].
  apply orb_false_iff in E as [E1%Z.leb_gt E2%Z.ltb_ge]. intros H.
  apply bind_inv in H as (k & Hk & H).
  destruct (k_lam_fp_inv _ _ _ _ _ _ _ Hk) as (il & c & _ & _ & HJ & HL & Rk & Ck & _).
  rewrite zeros2_ok, zeros1_ok in H by lia. cbn [bind] in H.
  rewrite (for_fill1 L _ 0 L (fun l => fsqrt (get2 k J_min l))) in H; [|lia|lia|lia|].
  2:{ intros l g Hl. rewrite rd2_ok by lia. reflexivity. }
  cbn [bind] in H. apply bind_inv in H as ([[psi' pt] tm] & H & E). injection E as -> <-.
  split; [lia|]. exists k. split; [exact Hk|].
  set (d := fun j l => fsub (get2 k (j + 1) l) (get2 k j l)).
  set (P := fun (j : Z) (st : arr2 f64 * f64 * option f64) => let a := fst (fst st) in
    rows a = J + 1 /\ cols a = L /\
    (forall j' l, J_min <= j' < j -> 0 <= l < L -> flt (d j' l) (fint 0) = false -> get2 a j' l = fsqrt (d j' l)) /\
    (forall j' l, 0 <= j' < J_min -> 0 <= l < L -> get2 a j' l = fint 0)).
  assert (HP : P (J + 1) (psi, pt, tm)).
  { refine (for_inv P J_min (J + 1) _ _ _ _ _ _ H); [lia| |].
    - unfold P. cbn [fst]. split; [reflexivity|]. split; [reflexivity|]. split; [lia|].
      intros j' l Hj' Hl. rewrite get2_mk by lia. reflexivity.
    - intros j a b Hj (A & B & D & F) Hb.
      set (Q := fun (m : Z) (st : arr2 f64 * f64 * option f64) => let a := fst (fst st) in
        rows a = J + 1 /\ cols a = L /\
        (forall j' l, J_min <= j' < j -> 0 <= l < L -> flt (d j' l) (fint 0) = false -> get2 a j' l = fsqrt (d j' l)) /\
        (forall j' l, 0 <= j' < J_min -> 0 <= l < L -> get2 a j' l = fint 0) /\
        (forall l, 0 <= l < m -> flt (d j l) (fint 0) = false -> get2 a j l = fsqrt (d j l))).
      assert (HQ : Q L b).
      { refine (for_inv Q 0 L _ _ b _ _ _ Hb); [lia| |].
        - split; [exact A|]. split; [exact B|]. split; [exact D|]. split; [exact F|]. lia.
        - intros m [[a' p'] t'] [[b' p2] t2] Hm (A' & B' & C' & D' & F') Hb'. cbn [fst] in *.
          rewrite !rd2_ok in Hb' by lia. cbn [bind] in Hb'. fold (d j m) in Hb'.
          apply bind_inv in Hb' as ([w tw] & Hw & Hb').
          assert (HW : exists v, w = mk2 (J + 1) L (fun p q => if (p =? j) && (q =? m) then v else get2 a' p q) /\
             (flt (d j m) (fint 0) = false -> v = fsqrt (d j m))).
          { destruct (flt (d j m) (fint 0)); apply bind_inv in Hw as (w' & Hw & E); injection E as <- <-;
            rewrite wr2_ok in Hw by lia; apply Ok_inj in Hw as <-; rewrite A', B'; eexists; (split; [reflexivity|]);
            intros; [discriminate|reflexivity]. }
          destruct HW as (v & -> & Hv). destruct tw as [tw|]; [|discriminate]. injection Hb' as <- _ _.
          unfold Q. cbn [fst rows cols mk2]. split; [reflexivity|]. split; [reflexivity|].
          split; [|split].
          + intros j' l Hj' Hl Hd. rewrite get2_mk by lia. destruct (Z.eqb_spec j' j); [lia|]. cbn [andb]. auto.
          + intros j' l Hj' Hl. rewrite get2_mk by lia. destruct (Z.eqb_spec j' j); [lia|]. cbn [andb]. auto.
          + intros l Hl Hd. rewrite get2_mk by lia. rewrite Z.eqb_refl. cbn [andb].
            destruct (Z.eqb_spec l m) as [->|]; [auto|]. apply F'; [lia|exact Hd]. }
      destruct HQ as (A' & B' & C' & D' & F'). split; [exact A'|]. split; [exact B'|]. split; [|exact D'].
      intros j' l Hj' Hl Hd. destruct (Z.eq_dec j' j) as [->|]; [apply F'; auto|apply C'; auto; lia]. }
  destruct HP as (A & B & D & F). cbn [fst] in *. split; [exact A|]. split; [exact B|]. split; [reflexivity|].
  split; [intros j l Hj Hl Hd; apply D; auto; lia|]. split; [exact F|].
  intros l Hl. rewrite get1_mk by lia. destruct (Z.leb_spec 0 l); [|lia]. destruct (Z.ltb_spec l L); [|lia]. reflexivity.
Qed.

(** ** the entries of k_lam *)
Lemma f300 : feq (fint 300) (fint 0) = false. Proof. vm_compute. reflexivity. Qed.
Lemma k_one fexp fpow j l lam n c : Z.abs l <= 2 ^ 53 -> is_finite (fpow lam (j - 1)) = true ->
  (IZR l < B2R (fpow lam (j - 1)%Z))%R -> k_entry_fp fexp fpow j l lam n c = Ok (fint 1).
Proof.
  intros Hl F H. unfold k_entry_fp. rewrite flt_true; auto using fint_fin. now rewrite fint_B2R.
Qed.

Lemma flt0_inv c : flt (fint 0) c = true -> c = finf \/ (is_finite c = true /\ (0 < B2R c)%R).
Proof.
  intros H. destruct (is_finite c) eqn:F.
  - right. split; [reflexivity|]. apply flt_iff in H; auto.
  - left. destruct c as [|[]| |]; try discriminate. reflexivity.
Qed.
Lemma fdiv0 c : flt (fint 0) c = true -> fdiv (fint 0) c = fint 0.
Proof.
  intros H. destruct c as [s|s| |s m e He]; try discriminate; destruct s; try discriminate; try reflexivity.
Qed.
Lemma B2R_1_div x y : is_finite x = true -> is_finite y = true -> B2R x = B2R y -> B2R y <> 0%R ->
  is_finite (fdiv x y) = true /\ B2R (fdiv x y) = 1%R.
Proof.
  intros Fx Fy E N. pose proof (@Bdiv_correct 53 1024 gt53 lt53 mode_NE x y N) as H.
  change (Bdiv mode_NE x y) with (fdiv x y) in H. rewrite E in H.
  replace (B2R y / B2R y)%R with 1%R in H by (field; exact N).
  rewrite round_generic in H; [|typeclasses eauto|apply (format_int 1); lia].
  rewrite Rlt_bool_true in H.
  - destruct H as (A & B & _). rewrite B, A. auto.
  - rewrite Rabs_R1. apply Rlt_le_trans with (bpow radix2 1); [cbn; lra|apply bpow_le; lia].
Qed.

Lemma k_zero fexp fpow j l lam c : Z.abs l <= 2 ^ 53 ->
  is_finite (fpow lam (j - 1)) = true -> is_finite (fpow lam j) = true ->
  (0 < B2R (fpow lam j))%R -> (B2R (fpow lam (j - 1)%Z) <= IZR l)%R -> (B2R (fpow lam j) <= IZR l)%R ->
  flt (fint 0) c = true ->
  k_entry_fp fexp fpow j l lam 300 c = Ok (fint 0).
Proof.
  intros Hl F1 F2 P H1 H2 Hc. destruct (fint_ok l Hl) as [Fl El]. unfold k_entry_fp.
  rewrite flt_false by (auto; rewrite El; auto).
  destruct (flt (fpow lam j) (fint l)) eqn:E; [reflexivity|].
  assert (E' : B2R (fint l) = B2R (fpow lam j)).
  { apply not_true_iff_false in E. rewrite flt_iff in E by auto. lra. }
  rewrite pydiv_ok by (apply feq_false; auto; rewrite fint_B2R by lia; lra). cbn [bind].
  destruct (B2R_1_div (fint l) (fpow lam j)) as [Fa Ea]; auto; [lra|].
  unfold part_scaling_fn_fp. rewrite (pydiv_ok _ (fint 300)) by exact f300. cbn [bind].
  replace (feq (fdiv (fint l) (fpow lam j)) (fint 1)) with true.
  - cbn [bind]. now rewrite fdiv0.
  - symmetry. apply feq_iff; auto using fint_fin. rewrite Ea. symmetry. apply (fint_B2R 1). lia.
Qed.
Lemma fsub00 : fsub (fint 0) (fint 0) = fint 0. Proof. reflexivity. Qed.
Lemma fsub11 : fsub (fint 1) (fint 1) = fint 0. Proof. reflexivity. Qed.
Lemma fsqrt0 : fsqrt (fint 0) = fint 0. Proof. reflexivity. Qed.
Lemma fclip0 : fclip (fint 0) = fint 0. Proof. reflexivity. Qed.
Lemma flt00 : flt (fint 0) (fint 0) = false. Proof. reflexivity. Qed.

(** ** rounding errors *)
#[local] Existing Instance gt53.
Notation rnd := (round radix2 (SpecFloat.fexp 53 1024) (round_mode mode_NE)).
Lemma rnd_eq x : rnd x = rnd64 x. Proof. reflexivity. Qed.
#[local] Instance vexp : Valid_exp (SpecFloat.fexp 53 1024). Proof. exact (@fexp_correct 53 1024 gt53). Qed.
#[local] Instance mexp : Monotone_exp (SpecFloat.fexp 53 1024).
Proof. change (SpecFloat.fexp 53 1024) with (FLT_exp (-1074) 53). typeclasses eauto. Qed.

Lemma fmt x : generic_format radix2 (SpecFloat.fexp 53 1024) (B2R (x : f64)).
Proof. apply generic_format_B2R. Qed.
Lemma rnd_id (x : f64) : rnd (B2R x) = B2R x.
Proof. apply round_generic; [typeclasses eauto|apply fmt]. Qed.
Lemma rnd_mono x y : (x <= y)%R -> (rnd x <= rnd y)%R.
Proof. intros. apply round_le; auto; typeclasses eauto. Qed.
Lemma rnd_Z k : Z.abs k <= 2 ^ 53 -> rnd (IZR k) = IZR k.
Proof. intros. apply round_generic; [typeclasses eauto|apply format_int; auto]. Qed.

Lemma fsub_ok x y : is_finite x = true -> is_finite y = true -> (Rabs (rnd (B2R x - B2R y)) < bpow radix2 1024)%R ->
  is_finite (fsub x y) = true /\ B2R (fsub x y) = rnd (B2R x - B2R y).
Proof.
  intros Fx Fy H. pose proof (@Bminus_correct 53 1024 gt53 lt53 mode_NE x y Fx Fy) as G.
  change (Bminus mode_NE x y) with (fsub x y) in G. rewrite Rlt_bool_true in G by exact H. tauto.
Qed.
Lemma fadd_ok x y : is_finite x = true -> is_finite y = true -> (Rabs (rnd (B2R x + B2R y)) < bpow radix2 1024)%R ->
  is_finite (fadd x y) = true /\ B2R (fadd x y) = rnd (B2R x + B2R y).
Proof.
  intros Fx Fy H. pose proof (@Bplus_correct 53 1024 gt53 lt53 mode_NE x y Fx Fy) as G.
  change (Bplus mode_NE x y) with (fadd x y) in G. rewrite Rlt_bool_true in G by exact H. tauto.
Qed.
Lemma fmul_ok x y : is_finite x = true -> is_finite y = true -> (Rabs (rnd (B2R x * B2R y)) < bpow radix2 1024)%R ->
  is_finite (fmul x y) = true /\ B2R (fmul x y) = rnd (B2R x * B2R y).
Proof.
  intros Fx Fy H. pose proof (@Bmult_correct 53 1024 gt53 lt53 mode_NE x y) as G.
  change (Bmult mode_NE x y) with (fmul x y) in G. rewrite Rlt_bool_true in G by exact H. rewrite Fx, Fy in G. tauto.
Qed.
Lemma fdiv_ok x y : is_finite x = true -> B2R y <> 0%R -> (Rabs (rnd (B2R x / B2R y)) < bpow radix2 1024)%R ->
  is_finite (fdiv x y) = true /\ B2R (fdiv x y) = rnd (B2R x / B2R y).
Proof.
  intros Fx Fy H. pose proof (@Bdiv_correct 53 1024 gt53 lt53 mode_NE x y Fy) as G.
  change (Bdiv mode_NE x y) with (fdiv x y) in G. rewrite Rlt_bool_true in G by exact H. rewrite Fx in G. tauto.
Qed.
Lemma fsqrt_ok x : is_finite x = true -> (0 <= B2R x)%R -> is_finite (fsqrt x) = true /\ B2R (fsqrt x) = rnd (sqrt (B2R x)).
Proof.
  intros Fx H. destruct (@Bsqrt_correct 53 1024 gt53 lt53 mode_NE x) as (A & B & _).
  change (Bsqrt mode_NE x) with (fsqrt x) in A, B. split; [|exact A]. rewrite B.
  destruct x as [s|s| |s m e He]; try discriminate; auto. destruct s; auto.
  cbn [B2R] in H. exfalso. assert (N : (F2R (Float radix2 (cond_Zopp true (Z.pos m)) e) < 0)%R) by (apply F2R_lt_0; reflexivity). lra.
Qed.

Definition eps : R := / 9007199254740992. (* 2^-53 *)
Lemma eps_bpow : eps = bpow radix2 (-53). Proof. reflexivity. Qed.

(** relative error of a rounded number of normal size *)
Lemma rnd_rel x : (bpow radix2 (-1022) <= Rabs x)%R -> (Rabs (rnd x - x) <= eps * Rabs x)%R.
Proof.
  intros H. pose proof (relative_error_N_FLT radix2 (-1074) 53 gt53 (fun z => negb (Z.even z)) x) as G.
  change (-1074 + 53 - 1) with (-1022) in G. specialize (G H). replace eps with (/ 2 * bpow radix2 (- (53) + 1))%R; [exact G|].
  change (bpow radix2 (- (53) + 1)) with (/ 4503599627370496)%R. unfold eps. lra.
Qed.
(** absolute error below 1 *)
Lemma rnd_abs1 x : (Rabs x <= 1)%R -> (Rabs (rnd x - x) <= eps)%R.
Proof.
  intros H. pose proof (error_le_half_ulp radix2 (SpecFloat.fexp 53 1024) (fun z => negb (Z.even z)) x) as G.
  assert (U : (ulp radix2 (SpecFloat.fexp 53 1024) x <= ulp radix2 (SpecFloat.fexp 53 1024) (bpow radix2 0))%R).
  { apply ulp_le; [typeclasses eauto|typeclasses eauto|]. change (bpow radix2 0) with 1%R. rewrite Rabs_R1. exact H. }
  rewrite ulp_bpow in U. change (bpow radix2 (SpecFloat.fexp 53 1024 (0 + 1))) with (/ 4503599627370496)%R in U.
  change (Rabs (rnd x - x) <= / 2 * ulp radix2 (SpecFloat.fexp 53 1024) x)%R in G. unfold eps. lra.
Qed.

(** the square of a rounded square root *)
Lemma sqrt_sq (x : f64) : is_finite x = true -> (0 <= B2R x)%R ->
  (Rabs (rnd (sqrt (B2R x)) ^ 2 - B2R x) <= (2 * eps + eps * eps) * B2R x)%R.
Proof.
  intros Fx H. destruct (Req_dec (B2R x) 0) as [E|E].
  { rewrite E, sqrt_0, (rnd_Z 0) by lia. rewrite Rmult_0_r. replace (0 ^ 2 - 0)%R with 0%R by ring. rewrite Rabs_R0. lra. }
  assert (S : is_finite_strict x = true) by (destruct x; try discriminate; try reflexivity; contradiction E; reflexivity).
  apply abs_B2R_ge_emin in S. rewrite Rabs_pos_eq in S by assumption. change (SpecFloat.emin 53 1024) with (-1074) in S.
  set (s := sqrt (B2R x)).
  assert (Hs : (bpow radix2 (-537) <= s)%R).
  { apply Rsqr_incr_0_var; [|apply sqrt_pos]. unfold s. rewrite Rsqr_sqrt by assumption. unfold Rsqr.
    rewrite <- bpow_plus. exact S. }
  assert (P : (0 < s)%R) by (apply Rlt_le_trans with (2 := Hs), bpow_gt_0).
  assert (R : (Rabs (rnd s - s) <= eps * s)%R).
  { pose proof (rnd_rel s) as G. rewrite (Rabs_pos_eq s) in G by lra. apply G.
    apply Rle_trans with (2 := Hs), bpow_le. lia. }
  assert (E2 : B2R x = (s * s)%R) by (symmetry; apply sqrt_sqrt; assumption). rewrite E2.
  apply Rabs_le_inv in R. set (d := (rnd s - s)%R) in *.
  replace (rnd s ^ 2 - s * s)%R with (2 * s * d + d * d)%R by (unfold d; ring).
  assert (0 < eps)%R by (unfold eps; lra).
  assert (D : (d * d <= (eps * s) * (eps * s))%R).
  { assert (0 <= (eps * s - d) * (eps * s + d))%R by (apply Rmult_le_pos; lra). nra. }
  apply Rabs_le. split; nra.
Qed.

Lemma fclip_sqrt d : is_finite d = true -> let m := Rmax 0 (B2R d) in
  (Rabs (B2R (fsqrt (fclip d)) ^ 2 - m) <= (2 * eps + eps * eps) * m)%R.
Proof.
  intros F m. unfold fclip. destruct (flt d (fint 0)) eqn:E.
  - apply flt_iff in E; [|exact F|reflexivity]. change (B2R (fint 0)) with 0%R in E.
    change (B2R (fsqrt (fint 0))) with 0%R. unfold m. rewrite Rmax_left by lra.
    replace (0 ^ 2 - 0)%R with 0%R by ring. rewrite Rabs_R0. lra.
  - apply not_true_iff_false in E. rewrite flt_iff in E; [|exact F|reflexivity]. change (B2R (fint 0)) with 0%R in E.
    unfold m. rewrite Rmax_right by lra. destruct (fsqrt_ok d F) as [_ ->]; [lra|]. apply sqrt_sq; auto; lra.
Qed.

Lemma fsub_v0 v : is_finite v = true -> is_finite (fsub v (fint 0)) = true /\ B2R (fsub v (fint 0)) = B2R v.
Proof.
  intros F. assert (E : (B2R v - B2R (fint 0) = B2R v)%R) by (change (B2R (fint 0)) with 0%R; ring).
  destruct (fsub_ok v (fint 0) F eq_refl) as [A B]; [rewrite E, rnd_id; apply abs_B2R_lt_emax|].
  split; [exact A|]. rewrite B, E. apply rnd_id.
Qed.
Lemma one_B2R : B2R (fint 1) = 1%R. Proof. apply (fint_B2R 1). lia. Qed.
Lemma fsub_1v v : is_finite v = true -> (0 <= B2R v)%R ->
  is_finite (fsub (fint 1) v) = true /\ B2R (fsub (fint 1) v) = rnd (1 - B2R v).
Proof.
  intros F H. pose proof (fsub_ok (fint 1) v eq_refl F) as G. rewrite one_B2R in G. apply G.
  destruct (Rle_or_lt (B2R v) 1) as [L|L].
  - assert (A : (Rabs (1 - B2R v) <= IZR 1)%R) by (rewrite Rabs_pos_eq; lra).
    apply Rle_lt_trans with (IZR 1); [apply abs_round_le_generic; auto; try typeclasses eauto; apply (format_int 1); lia|].
    apply (bpow_lt radix2 0). lia.
  - assert (A : (Rabs (1 - B2R v) <= B2R v)%R) by (rewrite Rabs_left; lra).
    apply Rle_lt_trans with (B2R v); [apply abs_round_le_generic; auto; try typeclasses eauto; apply fmt|].
    pose proof (@abs_B2R_lt_emax 53 1024 v) as B. rewrite Rabs_pos_eq in B by lra. exact B.
Qed.
