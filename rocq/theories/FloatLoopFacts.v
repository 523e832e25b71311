(** * Closed forms of the looped binary64 transforms *)

From Coq Require Import ZArith Reals List Bool Lia.
From Flocq Require Import Core IEEE754.BinarySingleNaN.
From Verif Require Import Py PyFacts ModelSamples SamplesFacts ModelFloat ModelFloatDir ModelFloatTrans ModelFloatLoop Spec
  DirectionFacts DirFilterFacts TransformsFacts LoopFacts FloatTransFacts.
Import ListNotations.
Open Scope Z_scope.

(** ** Analysis, one scale *)

(** the value the looped analysis stores for the order n, multipole l, azimuth m *)
Definition wval64 (L : Z) (psi : arr3 c64) (flm : arr2 c64) (j : Z) (n l m : Z) : c64 :=
  cmul (get2 flm l (L - 1 + m))
        (cmul (cconj64 (get3 psi j l (L - 1 + n))) (creal (fdiv (fmul (fint 8) (fmul fpi fpi)) (fint (2 * l + 1))))).
Definition wvalr64 (L : Z) (psi : arr3 c64) (flm : arr2 c64) (j : Z) (reality : bool) (n l m : Z) : c64 :=
  if reality && (m <? 0)
  then cmul (csgn64 (- m + - n)) (cconj64 (wval64 L psi flm j (- n) l (- m)))
  else wval64 L psi flm j n l m.
Definition wloop64 (L spin : Z) (psi : arr3 c64) (flm : arr2 c64) (reality : bool) (j Lj Nj L0j : Z) : arr3 c64 :=
  mk3 (2 * Nj - 1) Lj (2 * Lj - 1) (fun a l b =>
    let n := a - (Nj - 1) in let m := b - (Lj - 1) in
    if Z.even a && (Z.max (Z.max (Z.abs spin) (Z.abs n)) L0j <=? l) && (Z.abs m <=? l)
    then wvalr64 L psi flm j reality n l m else creal (fint 0)).

(** index arithmetic around the centres of the order and azimuth axes *)
Ltac norm_ix :=
  repeat match goal with
  | |- context [?Nj - 1 + ?n - (?Nj - 1)] => replace (Nj - 1 + n - (Nj - 1)) with n by lia
  | |- context [?Nj - 1 - ?n - (?Nj - 1)] => replace (Nj - 1 - n - (Nj - 1)) with (- n) by lia
  | |- context [?Nj - 1 - (?Nj - 1)] => replace (Nj - 1 - (Nj - 1)) with 0 by lia
  | |- context [- - ?n] => replace (- - n) with n by lia
  | |- context [?a + - ?n] => replace (a + - n) with (a - n) by lia
  end; reflexivity.

Section An.
Variables (L Lj Nj L0 j spin : Z) (reality : bool) (psi : arr3 c64) (flm : arr2 c64).
Hypothesis HL : 0 <= L0 <= Lj.
Hypothesis HLj : 1 <= Lj <= L.
Hypothesis HN : 1 <= Nj.
Hypothesis Hj : 0 <= j < dim0 psi.
Hypothesis H1 : dim1 psi = L.
Hypothesis H2 : dim2 psi = 2 * L - 1.
Hypothesis F1 : rows flm = L.
Hypothesis F2 : cols flm = 2 * L - 1.

Definition v364 (a l b : Z) : c64 := wvalr64 L psi flm j reality (a - (Nj - 1)) l (b - (Lj - 1)).

(** positions written by the iteration (n, el, m) *)
Definition w_m64 (n el m a l b : Z) : bool :=
  (l =? el) &&
  (((a =? Nj - 1 + n) && (b =? Lj - 1 + m)) ||
   ((a =? (if reality then Nj - 1 - n else Nj - 1 + n)) && (b =? Lj - 1 - m))).
(** by the iteration (n, el) *)
Definition w_el64 (n el a l b : Z) : bool :=
  existsb (fun m => w_m64 n el m a l b) (zrange 1 (el + 1)) ||
  ((l =? el) && (a =? Nj - 1 + n) && (b =? Lj - 1)).

Notation D g := (mk3 (2 * Nj - 1) Lj (2 * Lj - 1) g).

Lemma an_m64 n el m g : - Nj < n < Nj -> 0 <= el < Lj -> 1 <= m <= el ->
  (x <- rd2 flm el (L - 1 + m) ;;
   a <- wr3 (D g) (Nj - 1 + n) el (Lj - 1 + m)
     (cmul x (cmul (cconj64 (get3 psi j el (L - 1 + n))) (creal (fdiv (fmul (fint 8) (fmul fpi fpi)) (fint (2 * el + 1)))))) ;;
   if reality then
     y <- rd3 a (Nj - 1 + n) el (Lj - 1 + m) ;;
     wr3 a (Nj - 1 - n) el (Lj - 1 - m) (cmul (csgn64 (m + n)) (cconj64 y))
   else
     x <- rd2 flm el (L - 1 - m) ;;
     wr3 a (Nj - 1 + n) el (Lj - 1 - m)
       (cmul x (cmul (cconj64 (get3 psi j el (L - 1 + n))) (creal (fdiv (fmul (fint 8) (fmul fpi fpi)) (fint (2 * el + 1)))))))
  = Ok (D (fun a l b => if w_m64 n el m a l b then v364 a l b else g a l b)).
Proof.
  intros Hn Hel Hm. rewrite rd2_ok by lia. cbn [bind]. rewrite wr3_mk by lia. cbn [bind].
  unfold w_m64, v364, wvalr64. destruct reality eqn:Er.
  - rewrite rd3_mk by lia. cbn [bind]. rewrite wr3_mk by lia. f_equal. apply mk3_ext.
    intros a l b Ha Hl Hb. rewrite !Z.eqb_refl. cbn [andb].
    destruct (Z.eqb_spec l el) as [->|]; [|rewrite ?andb_false_r; reflexivity].
    rewrite !andb_true_r. cbn [andb].
    destruct (Z.eqb_spec a (Nj - 1 - n)), (Z.eqb_spec b (Lj - 1 - m)); cbn [andb orb]; subst;
      rewrite ?orb_true_r, ?orb_false_r.
    + replace (Lj - 1 - m - (Lj - 1) <? 0) with true by zb.
      unfold wval64. replace (- (Lj - 1 - m - (Lj - 1))) with m by lia.
      replace (- (Nj - 1 - n - (Nj - 1))) with n by lia. reflexivity.
    + destruct (Z.eqb_spec b (Lj - 1 + m)); rewrite ?andb_false_r, ?andb_true_r; auto.
      destruct (Z.eqb_spec (Nj - 1 - n) (Nj - 1 + n)); auto. subst b.
      replace (Lj - 1 + m - (Lj - 1) <? 0) with false by zb. assert (n = 0) by lia. subst n.
      unfold wval64. replace (Nj - 1 - 0 - (Nj - 1)) with 0 by lia. norm_ix.
    + destruct (Z.eqb_spec (Lj - 1 - m) (Lj - 1 + m)); [lia|]. now rewrite andb_false_r.
    + destruct (Z.eqb_spec a (Nj - 1 + n)); cbn [andb]; auto.
      destruct (Z.eqb_spec b (Lj - 1 + m)); cbn [andb]; auto. subst.
      replace (Lj - 1 + m - (Lj - 1) <? 0) with false by zb. unfold wval64; norm_ix.
  - rewrite rd2_ok by lia. cbn [bind]. rewrite wr3_mk by lia. f_equal. apply mk3_ext.
    intros a l b Ha Hl Hb. cbn [andb].
    destruct (Z.eqb_spec l el) as [->|]; [|rewrite ?andb_false_r; reflexivity].
    rewrite !andb_true_r. cbn [andb].
    destruct (Z.eqb_spec a (Nj - 1 + n)); cbn [andb orb]; auto. subst a.
    destruct (Z.eqb_spec b (Lj - 1 - m)); subst; rewrite ?orb_true_r, ?orb_false_r.
    + unfold wval64; norm_ix.
    + destruct (Z.eqb_spec b (Lj - 1 + m)); subst; auto. unfold wval64; norm_ix.
Qed.

Lemma an_el64 n el g : - Nj < n < Nj -> Z.abs n <= el < Lj ->
  (w <- rd3 psi j el (L - 1 + n) ;;
   let psi := cmul (cconj64 w) (creal (fdiv (fmul (fint 8) (fmul fpi fpi)) (fint (2 * el + 1)))) in
   x <- rd2 flm el (L - 1 + 0) ;;
   a <- wr3 (D g) (Nj - 1 + n) el (Lj - 1) (cmul x psi) ;;
   for_ (zrange 1 (el + 1)) a (fun m a =>
     x <- rd2 flm el (L - 1 + m) ;;
     a <- wr3 a (Nj - 1 + n) el (Lj - 1 + m) (cmul x psi) ;;
     if reality then
       y <- rd3 a (Nj - 1 + n) el (Lj - 1 + m) ;;
       wr3 a (Nj - 1 - n) el (Lj - 1 - m) (cmul (csgn64 (m + n)) (cconj64 y))
     else
       x <- rd2 flm el (L - 1 - m) ;;
       wr3 a (Nj - 1 + n) el (Lj - 1 - m) (cmul x psi)))
  = Ok (D (fun a l b => if w_el64 n el a l b then v364 a l b else g a l b)).
Proof.
  intros Hn Hel. rewrite rd3_ok by lia. cbn [bind]. cbv zeta. rewrite rd2_ok by lia. cbn [bind].
  rewrite wr3_mk by lia. cbn [bind].
  rewrite (paint3 (2 * Nj - 1) Lj (2 * Lj - 1) _ 1 (el + 1) (w_m64 n el) v364).
  2:{ intros m g' Hm. apply an_m64; lia. }
  f_equal. apply mk3_ext. intros a l b Ha Hl Hb. unfold w_el64.
  destruct (existsb _ _); cbn [orb]; auto.
  destruct (Z.eqb_spec a (Nj - 1 + n)), (Z.eqb_spec l el), (Z.eqb_spec b (Lj - 1)); cbn [andb]; auto.
  subst. unfold v364, wvalr64. replace (Lj - 1 - (Lj - 1) <? 0) with false by zb. rewrite andb_false_r.
  unfold wval64; norm_ix.
Qed.

Lemma an_scale64 :
  for_ (zrange_st (- Nj + 1) Nj 2) (D (fun _ _ _ => creal (fint 0))) (fun n a =>
    for_ (zrange (Z.max (Z.max (Z.abs spin) (Z.abs n)) L0) Lj) a (fun el a =>
      w <- rd3 psi j el (L - 1 + n) ;;
      let psi := cmul (cconj64 w) (creal (fdiv (fmul (fint 8) (fmul fpi fpi)) (fint (2 * el + 1)))) in
      x <- rd2 flm el (L - 1 + 0) ;;
      a <- wr3 a (Nj - 1 + n) el (Lj - 1) (cmul x psi) ;;
      for_ (zrange 1 (el + 1)) a (fun m a =>
        x <- rd2 flm el (L - 1 + m) ;;
        a <- wr3 a (Nj - 1 + n) el (Lj - 1 + m) (cmul x psi) ;;
        if reality then
          y <- rd3 a (Nj - 1 + n) el (Lj - 1 + m) ;;
          wr3 a (Nj - 1 - n) el (Lj - 1 - m) (cmul (csgn64 (m + n)) (cconj64 y))
        else
          x <- rd2 flm el (L - 1 - m) ;;
          wr3 a (Nj - 1 + n) el (Lj - 1 - m) (cmul x psi))))
  = Ok (wloop64 L spin psi flm reality j Lj Nj L0).
Proof.
  rewrite step2_map by lia. rewrite for_map.
  set (lo := fun n => Z.max (Z.max (Z.abs spin) (Z.abs n)) L0).
  rewrite (paint3 (2 * Nj - 1) Lj (2 * Lj - 1) _ 0 Nj
    (fun k a l b => existsb (fun el => w_el64 (- Nj + 1 + k * 2) el a l b)
                            (zrange (lo (- Nj + 1 + k * 2)) Lj)) v364).
  2:{ intros k g Hk. apply paint3. intros el g' Hel. apply an_el64; unfold lo in *; lia. }
  f_equal. unfold wloop64. apply mk3_ext. intros a l b Ha Hl Hb. cbv zeta.
  match goal with |- (if ?c then _ else _) = (if ?d then _ else _) =>
    replace c with d; [reflexivity|]; apply bool_iff end.
  rewrite !andb_true_iff, !Z.leb_le. rewrite existsb_zrange. split.
  - intros [[Ea Hmax] Hm].
    assert (Ha' : a = 2 * (a / 2)).
    { pose proof (Z.div_mod a 2 ltac:(lia)). rewrite Zmod_even, Ea in *. lia. }
    set (m := b - (Lj - 1)) in *. set (n := a - (Nj - 1)) in *.
    destruct (Z_lt_le_dec m 0) as [Hneg|Hpos].
    + (* a negative order: written by n (not reality) or -n (reality) *)
      exists (if reality then Nj - 1 - a / 2 else a / 2).
      split; [destruct reality; lia|].
      apply existsb_zrange. exists l. split; [unfold lo; destruct reality; lia|].
      unfold w_el64. apply orb_true_iff. left. apply existsb_zrange. exists (- m).
      split; [lia|]. unfold w_m64. rewrite Z.eqb_refl. cbn [andb]. apply orb_true_iff. right.
      apply andb_true_iff. split; apply Z.eqb_eq; [|lia]. destruct reality; lia.
    + exists (a / 2). split; [lia|]. apply existsb_zrange. exists l. split; [unfold lo; lia|].
      unfold w_el64. apply orb_true_iff. destruct (Z.eq_dec m 0).
      * right. rewrite Z.eqb_refl. cbn [andb]. apply andb_true_iff.
        split; apply Z.eqb_eq; lia.
      * left. apply existsb_zrange. exists m. split; [lia|]. unfold w_m64. rewrite Z.eqb_refl.
        cbn [andb]. apply orb_true_iff. left. apply andb_true_iff. split; apply Z.eqb_eq; lia.
  - intros (k & Hk & E). apply existsb_zrange in E as (el & Hel & E). unfold lo in Hel.
    unfold w_el64 in E. apply orb_true_iff in E as [E|E].
    + apply existsb_zrange in E as (m & Hm & E). unfold w_m64 in E.
      apply andb_true_iff in E as [El E]. apply Z.eqb_eq in El. subst el.
      apply orb_true_iff in E as [E|E]; apply andb_true_iff in E as [E1 E2];
        apply Z.eqb_eq in E1, E2.
      * assert (Ea : a = 2 * k) by lia. rewrite Ea, Z.even_mul. cbn [Z.even orb]. lia.
      * destruct reality.
        -- assert (Ea : a = 2 * (Nj - 1 - k)) by lia. rewrite Ea, Z.even_mul. cbn [Z.even orb]. lia.
        -- assert (Ea : a = 2 * k) by lia. rewrite Ea, Z.even_mul. cbn [Z.even orb]. lia.
    + apply andb_true_iff in E as [E E3]. apply andb_true_iff in E as [E1 E2].
      apply Z.eqb_eq in E1, E2, E3. assert (Ea : a = 2 * k) by lia. rewrite Ea, Z.even_mul.
      cbn [Z.even orb]. lia.
Qed.
End An.

(** ** Scaling coefficients of the looped analysis *)

Definition pval64 (phi : arr1 f64) (l : Z) : c64 := creal (fmul (fsqrt (fdiv (fmul (fint 4) fpi) (fint (2 * l + 1)))) (get1 phi l)).
Definition svalr64 (L : Z) (phi : arr1 f64) (flm : arr2 c64) (reality : bool) (l m : Z) : c64 :=
  if reality && (m <? 0)
  then cmul (csgn64 (- m)) (cconj64 (cmul (get2 flm l (L - 1 + - m)) (pval64 phi l)))
  else cmul (get2 flm l (L - 1 + m)) (pval64 phi l).
Definition sloop64 (L spin : Z) (phi : arr1 f64) (flm : arr2 c64) (reality : bool) (Ls : Z) : arr2 c64 :=
  mk2 Ls (2 * Ls - 1) (fun l b =>
    let m := b - (Ls - 1) in
    if (Z.abs spin <=? l) && (Z.abs m <=? l) then svalr64 L phi flm reality l m else creal (fint 0)).

Section Sc.
Variables (L Ls spin : Z) (reality : bool) (phi : arr1 f64) (flm : arr2 c64).
Hypothesis HLs : 1 <= Ls <= L.
Hypothesis Hphi : len1 phi = L.
Hypothesis F1 : rows flm = L.
Hypothesis F2 : cols flm = 2 * L - 1.

Notation D g := (mk2 Ls (2 * Ls - 1) g).

Lemma sc_loop64 :
  for_ (zrange (Z.abs spin) Ls) (D (fun _ _ => creal (fint 0))) (fun el f_scal_lm =>
    sl <- rd1 phi el ;;
    let phi := creal (fmul (fsqrt (fdiv (fmul (fint 4) fpi) (fint (2 * el + 1)))) sl) in
    x <- rd2 flm el (L - 1 + 0) ;;
    f_scal_lm <- wr2 f_scal_lm el (Ls - 1 + 0) (cmul x phi) ;;
    for_ (zrange 1 (el + 1)) f_scal_lm (fun m f_scal_lm =>
      x <- rd2 flm el (L - 1 + m) ;;
      f_scal_lm <- wr2 f_scal_lm el (Ls - 1 + m) (cmul x phi) ;;
      if reality then
        y <- rd2 f_scal_lm el (Ls - 1 + m) ;;
        wr2 f_scal_lm el (Ls - 1 - m) (cmul (csgn64 m) (cconj64 y))
      else
        x <- rd2 flm el (L - 1 - m) ;;
        wr2 f_scal_lm el (Ls - 1 - m) (cmul x phi)))
  = Ok (sloop64 L spin phi flm reality Ls).
Proof.
  set (v := fun l b => svalr64 L phi flm reality l (b - (Ls - 1))).
  rewrite (paint2 Ls (2 * Ls - 1) _ (Z.abs spin) Ls
    (fun el l b => (l =? el) && (Z.abs (b - (Ls - 1)) <=? el)) v).
  - f_equal. unfold sloop64. apply mk2_ext. intros l b Hl Hb. cbv zeta.
    match goal with |- (if ?c then _ else _) = (if ?d then _ else _) =>
      replace c with d; [reflexivity|]; apply bool_iff end.
    rewrite existsb_zrange, andb_true_iff, !Z.leb_le. split.
    + intros [A1 A2]. exists l. split; [lia|]. rewrite Z.eqb_refl. cbn [andb]. now apply Z.leb_le.
    + intros (el & Hel & E). apply andb_true_iff in E as [E1 E2].
      apply Z.eqb_eq in E1. apply Z.leb_le in E2. lia.
  - intros el g Hel. rewrite rd1_ok by lia. cbn [bind]. cbv zeta. rewrite rd2_ok by lia. cbn [bind].
    rewrite wr2_mk by lia. cbn [bind]. fold (pval64 phi el).
    rewrite (paint2 Ls (2 * Ls - 1) _ 1 (el + 1)
      (fun m l b => (l =? el) && (Z.abs (b - (Ls - 1)) =? m)) v).
    + f_equal. apply mk2_ext. intros l b Hl Hb.
      destruct (existsb _ _) eqn:E.
      * apply existsb_zrange in E as (m & Hm & E). apply andb_true_iff in E as [E1 E2].
        apply Z.eqb_eq in E1, E2. subst. rewrite Z.eqb_refl. cbn [andb].
        destruct (Z.leb_spec (Z.abs (b - (Ls - 1))) el); [reflexivity|lia].
      * destruct (Z.eqb_spec l el) as [->|]; cbn [andb]; auto.
        destruct (Z.eqb_spec b (Ls - 1 + 0)) as [->|Hb0].
        -- destruct (Z.leb_spec (Z.abs (Ls - 1 + 0 - (Ls - 1))) el); [|lia].
           unfold v, svalr64. replace (Ls - 1 + 0 - (Ls - 1) <? 0) with false by zb.
           rewrite andb_false_r. norm_ix.
        -- destruct (Z.leb_spec (Z.abs (b - (Ls - 1))) el); auto. exfalso.
           apply not_true_iff_false in E. apply E.
           apply existsb_zrange. exists (Z.abs (b - (Ls - 1))). rewrite !Z.eqb_refl. split; auto. lia.
    + intros m g' Hm. rewrite rd2_ok by lia. cbn [bind]. rewrite wr2_mk by lia. cbn [bind].
      destruct reality eqn:Er.
      * rewrite rd2_mk by lia. cbn [bind]. rewrite wr2_mk by lia. f_equal. apply mk2_ext.
        intros l b Hl Hb. rewrite !Z.eqb_refl. cbn [andb].
        destruct (Z.eqb_spec l el) as [->|]; cbn [andb]; auto.
        unfold v, svalr64. cbn [andb].
        destruct (Z.eqb_spec b (Ls - 1 - m)) as [->|].
        -- destruct (Z.eqb_spec (Z.abs (Ls - 1 - m - (Ls - 1))) m); [|lia].
           replace (Ls - 1 - m - (Ls - 1) <? 0) with true by zb.
           replace (- (Ls - 1 - m - (Ls - 1))) with m by lia. reflexivity.
        -- destruct (Z.eqb_spec b (Ls - 1 + m)) as [->|].
           ++ destruct (Z.eqb_spec (Z.abs (Ls - 1 + m - (Ls - 1))) m); [|lia].
              replace (Ls - 1 + m - (Ls - 1) <? 0) with false by zb. norm_ix.
           ++ destruct (Z.eqb_spec (Z.abs (b - (Ls - 1))) m); [lia|reflexivity].
      * rewrite rd2_ok by lia. cbn [bind]. rewrite wr2_mk by lia. f_equal. apply mk2_ext.
        intros l b Hl Hb.
        destruct (Z.eqb_spec l el) as [->|]; cbn [andb]; auto.
        unfold v, svalr64. cbn [andb].
        destruct (Z.eqb_spec b (Ls - 1 - m)) as [->|].
        -- destruct (Z.eqb_spec (Z.abs (Ls - 1 - m - (Ls - 1))) m); [|lia]. norm_ix.
        -- destruct (Z.eqb_spec b (Ls - 1 + m)) as [->|].
           ++ destruct (Z.eqb_spec (Z.abs (Ls - 1 + m - (Ls - 1))) m); [|lia]. norm_ix.
           ++ destruct (Z.eqb_spec (Z.abs (b - (Ls - 1))) m); [lia|reflexivity].
Qed.
End Sc.

(** ** Looped synthesis *)

Lemma fold_single {A} (h : A -> A) lo hi k a :
  fold_left (fun a i => if i =? k then h a else a) (zrange lo hi) a = if (lo <=? k) && (k <? hi) then h a else a.
Proof.
  destruct (Z_le_dec lo hi) as [Hle|Hgt].
  2:{ rewrite zrange_nil by lia. cbn [fold_left]. destruct (Z.leb_spec lo k), (Z.ltb_spec k hi); cbn [andb]; auto; lia. }
  pose proof (Z.le_refl hi) as Hh. revert Hh. generalize hi at 1 3 4 as c. revert Hle.
  assert (G : forall n, lo <= lo + Z.of_nat n -> fold_left (fun a i => if i =? k then h a else a) (zrange lo (lo + Z.of_nat n)) a
     = if (lo <=? k) && (k <? lo + Z.of_nat n) then h a else a).
  { induction n as [|n IH]; intros _.
    - rewrite zrange_nil by lia. cbn [fold_left]. destruct (Z.leb_spec lo k), (Z.ltb_spec k (lo + Z.of_nat 0)); cbn [andb]; auto; lia.
    - replace (lo + Z.of_nat (S n)) with (lo + Z.of_nat n + 1) by lia. rewrite zrange_snoc by lia. rewrite fold_left_app. cbn [fold_left].
      rewrite IH by lia. destruct (Z.eqb_spec (lo + Z.of_nat n) k) as [E|E].
      + subst k. destruct (Z.ltb_spec (lo + Z.of_nat n) (lo + Z.of_nat n)); [lia|]. rewrite andb_false_r.
        destruct (Z.leb_spec lo (lo + Z.of_nat n)), (Z.ltb_spec (lo + Z.of_nat n) (lo + Z.of_nat n + 1)); cbn [andb]; auto; lia.
      + destruct (Z.leb_spec lo k), (Z.ltb_spec k (lo + Z.of_nat n)), (Z.ltb_spec k (lo + Z.of_nat n + 1)); cbn [andb]; auto; lia. }
  intros Hle c Hc. destruct (Z_le_dec lo c).
  - replace c with (lo + Z.of_nat (Z.to_nat (c - lo))) by lia. apply G. lia.
  - rewrite zrange_nil by lia. cbn [fold_left]. destruct (Z.leb_spec lo k), (Z.ltb_spec k c); cbn [andb]; auto; lia.
Qed.
Lemma fold_ext_in {A} (f g : A -> Z -> A) l : (forall i a, In i l -> f a i = g a i) -> forall a, fold_left f l a = fold_left g l a.
Proof.
  induction l as [|i l IH]; intros H a; [reflexivity|]. cbn [fold_left]. rewrite (H i a) by now left. apply IH. intros k b Hk. apply H. now right.
Qed.
Lemma upd2f {A} `{Zeroed A} n m f lo hi (d : Z -> Z -> Z -> A -> A) body :
  (forall i g, lo <= i < hi -> body i (mk2 n m g) = Ok (mk2 n m (fun x y => d i x y (g x y)))) ->
  for_ (zrange lo hi) (mk2 n m f) body
  = Ok (mk2 n m (fun x y => fold_left (fun a i => d i x y a) (zrange lo hi) (f x y))).
Proof.
  intros Hb. destruct (Z_le_dec lo hi) as [Hle|Hgt].
  - apply (for_closed (fun k => mk2 n m (fun x y => fold_left (fun a i => d i x y a) (zrange lo k) (f x y))) lo hi); auto.
    + apply mk2_ext. intros. now rewrite zrange_nil by lia.
    + intros i Hi. rewrite Hb by lia. f_equal. apply mk2_ext. intros. now rewrite zrange_snoc, fold_left_app by lia.
  - rewrite zrange_nil by lia. reflexivity.
Qed.

(** what the scale j does to the accumulated coefficient a at (l, m) *)
Definition lstep64 (L spin : Z) (psi : arr3 c64) (j Lj Nj L0 : Z) (T : arr3 c64) (l m : Z) (a : c64) : c64 :=
  if (Z.abs m <=? l) && (l <? Lj) then
    fold_left (fun a i => let n := - Nj + 1 + i * 2 in
      if Z.max (Z.max (Z.abs spin) (Z.abs n)) L0 <=? l
      then cadd a (cmul (get3 T (Nj - 1 + n) l (Lj - 1 + m)) (get3 psi j l (L - 1 + n))) else a) (zrange 0 Nj) a
  else a.

Section Sy.
Variables (L Lj Nj L0 j spin : Z) (psi : arr3 c64) (T : arr3 c64).
Hypothesis HL : 0 <= L0 <= Lj.
Hypothesis HLj : 1 <= Lj <= L.
Hypothesis HN : 1 <= Nj <= L.
Hypothesis Hj : 0 <= j < dim0 psi.
Hypothesis H1 : dim1 psi = L.
Hypothesis H2 : dim2 psi = 2 * L - 1.
Hypothesis T0 : dim0 T = 2 * Nj - 1.
Hypothesis T1 : dim1 T = Lj.
Hypothesis T2 : dim2 T = 2 * Lj - 1.

Notation D g := (mk2 L (2 * L - 1) g).

Lemma sy_scale64 g :
  for_ (zrange_st (- Nj + 1) Nj 2) (D g) (fun n flm =>
    for_ (zrange (Z.max (Z.max (Z.abs spin) (Z.abs n)) L0) Lj) flm (fun el flm =>
      p <- rd3 psi j el (L - 1 + n) ;;
      for_ (zrange (- el) (el + 1)) flm (fun m flm =>
        x <- rd2 flm el (L - 1 + m) ;;
        t <- rd3 T (Nj - 1 + n) el (Lj - 1 + m) ;;
        wr2 flm el (L - 1 + m) (cadd x (cmul t p)))))
  = Ok (D (fun l q => lstep64 L spin psi j Lj Nj L0 T l (q - (L - 1)) (g l q))).
Proof.
  rewrite step2_map by lia. rewrite for_map.
  set (t := fun n el m => cmul (get3 T (Nj - 1 + n) el (Lj - 1 + m)) (get3 psi j el (L - 1 + n))).
  set (lo := fun n => Z.max (Z.max (Z.abs spin) (Z.abs n)) L0).
  rewrite (upd2f L (2 * L - 1) g 0 Nj (fun k x y a => let n := - Nj + 1 + k * 2 in
    if (lo n <=? x) && (x <? Lj) then (if Z.abs (y - (L - 1)) <=? x then cadd a (t n x (y - (L - 1))) else a) else a)).
  - f_equal. apply mk2_ext. intros l q Hl Hq. unfold lstep64. set (m := q - (L - 1)).
    destruct (Z.leb_spec (Z.abs m) l) as [Hm|Hm], (Z.ltb_spec l Lj) as [Hb|Hb]; cbn [andb].
    + apply fold_ext_in. intros i a _. cbv zeta. rewrite andb_true_r. reflexivity.
    + generalize (g l q) as a. induction (zrange 0 Nj) as [|i r IH]; intros a; [reflexivity|]. cbn [fold_left]. cbv zeta. rewrite andb_false_r. apply IH.
    + generalize (g l q) as a. induction (zrange 0 Nj) as [|i r IH]; intros a; [reflexivity|]. cbn [fold_left]. cbv zeta. destruct (_ && _); apply IH.
    + generalize (g l q) as a. induction (zrange 0 Nj) as [|i r IH]; intros a; [reflexivity|]. cbn [fold_left]. cbv zeta. rewrite andb_false_r. apply IH.
  - intros k g1 Hk. cbv zeta. set (n := - Nj + 1 + k * 2) in *. fold (lo n).
    rewrite (upd2f L (2 * L - 1) g1 (lo n) Lj (fun el x y a => if el =? x then (if Z.abs (y - (L - 1)) <=? x then cadd a (t n x (y - (L - 1))) else a) else a)).
    + f_equal. apply mk2_ext. intros x y Hx Hy. now rewrite (fold_single (fun a => if Z.abs (y - (L - 1)) <=? x then cadd a (t n x (y - (L - 1))) else a)).
    + intros el g2 Hel. unfold lo in Hel. rewrite rd3_ok by lia. cbn [bind].
      rewrite (upd2f L (2 * L - 1) g2 (- el) (el + 1) (fun m x y a => if m =? y - (L - 1) then (if el =? x then cadd a (t n x (y - (L - 1))) else a) else a)).
      * f_equal. apply mk2_ext. intros x y Hx Hy. rewrite (fold_single (fun a => if el =? x then cadd a (t n x (y - (L - 1))) else a)).
        destruct (Z.eqb_spec el x) as [->|]; [|destruct (_ && _); reflexivity].
        destruct (Z.leb_spec (- x) (y - (L - 1))), (Z.ltb_spec (y - (L - 1)) (x + 1)), (Z.leb_spec (Z.abs (y - (L - 1))) x); cbn [andb]; auto; lia.
      * intros m g3 Hm. rewrite rd2_mk by lia. cbn [bind]. rewrite rd3_ok by lia. cbn [bind].
        rewrite wr2_mk by lia. f_equal. apply mk2_ext. intros x y Hx Hy.
        destruct (Z.eqb_spec x el) as [->|Hne]; cbn [andb].
        -- rewrite Z.eqb_refl. destruct (Z.eqb_spec y (L - 1 + m)) as [->|].
           ++ replace (L - 1 + m - (L - 1)) with m by lia. now rewrite Z.eqb_refl.
           ++ destruct (Z.eqb_spec m (y - (L - 1))); [lia|reflexivity].
        -- destruct (Z.eqb_spec el x); [lia|]. destruct (m =? y - (L - 1)); reflexivity.
Qed.
End Sy.

(** the scaling loop applied to the accumulated wavelet part g *)
Definition sy_fin64 (spin : Z) (phi : arr1 f64) (Ls : Z) (S : arr2 c64) (reality : bool)
    (g : Z -> Z -> c64) (l m : Z) : c64 :=
  if (Z.abs spin <=? l) && (l <? Ls) && (Z.abs m <=? l) then
    if reality && (m <? 0)
    then cadd (g l m) (cmul (csgn64 (- m))
                 (cconj64 (cadd (g l (- m)) (cmul (get2 S l (Ls - 1 + - m)) (pval64 phi l)))))
    else cadd (g l m) (cmul (get2 S l (Ls - 1 + m)) (pval64 phi l))
  else g l m.

Section Sf.
Variables (L Ls spin : Z) (reality : bool) (phi : arr1 f64) (S : arr2 c64).
Hypothesis HLs : 1 <= Ls <= L.
Hypothesis Hphi : len1 phi = L.
Hypothesis S1 : rows S = Ls.
Hypothesis S2 : cols S = 2 * Ls - 1.

Notation D g := (mk2 L (2 * L - 1) (fun l q => g l (q - (L - 1)))).

Lemma sf_loop64 (g : Z -> Z -> c64) :
  for_ (zrange (Z.abs spin) Ls) (D g) (fun el flm =>
    sl <- rd1 phi el ;;
    let phi := creal (fmul (fsqrt (fdiv (fmul (fint 4) fpi) (fint (2 * el + 1)))) sl) in
    x <- rd2 flm el (0 + L - 1) ;;
    y <- rd2 S el (Ls - 1 + 0) ;;
    flm <- wr2 flm el (0 + L - 1) (cadd x (cmul y phi)) ;;
    for_ (zrange 1 (el + 1)) flm (fun m flm =>
      x <- rd2 flm el (L - 1 + m) ;;
      y <- rd2 S el (Ls - 1 + m) ;;
      flm <- wr2 flm el (L - 1 + m) (cadd x (cmul y phi)) ;;
      if reality then
        z <- rd2 flm el (m + L - 1) ;;
        x <- rd2 flm el (- m + L - 1) ;;
        wr2 flm el (- m + L - 1) (cadd x (cmul (csgn64 m) (cconj64 z)))
      else
        x <- rd2 flm el (- m + L - 1) ;;
        y <- rd2 S el (Ls - 1 - m) ;;
        wr2 flm el (- m + L - 1) (cadd x (cmul y phi))))
  = Ok (D (sy_fin64 spin phi Ls S reality g)).
Proof.
  set (u := fun l m => if reality && (m <? 0)
    then cadd (g l m) (cmul (csgn64 (- m))
                 (cconj64 (cadd (g l (- m)) (cmul (get2 S l (Ls - 1 + - m)) (pval64 phi l)))))
    else cadd (g l m) (cmul (get2 S l (Ls - 1 + m)) (pval64 phi l))).
  destruct (Z_le_dec (Z.abs spin) Ls) as [Hsp|Hsp].
  2:{ rewrite zrange_nil by lia. simpl for_. f_equal. apply mk2_ext. intros l q Hl Hq. unfold sy_fin64.
      destruct (Z.leb_spec (Z.abs spin) l), (Z.ltb_spec l Ls); cbn [andb]; auto; lia. }
  apply (eq_trans (y := Ok (D (fun l m => if (Z.abs spin <=? l) && (l <? Ls) && (Z.abs m <=? l)
    then u l m else g l m)))); [|reflexivity].
  apply (for_closed (fun k => D (fun l m => if (Z.abs spin <=? l) && (l <? k) && (Z.abs m <=? l)
    then u l m else g l m)) (Z.abs spin) Ls); auto.
  { apply mk2_ext. intros l q Hl Hq.
    destruct (Z.leb_spec (Z.abs spin) l), (Z.ltb_spec l (Z.abs spin)); cbn [andb]; auto; lia. }
  intros el Hel. rewrite rd1_ok by lia. cbn [bind]. cbv zeta. fold (pval64 phi el).
  rewrite rd2_mk by lia. cbn [bind]. rewrite rd2_ok by lia. cbn [bind].
  rewrite wr2_mk by lia. cbn [bind]. rewrite Z.ltb_irrefl, !andb_false_r. cbn [andb].
  set (h := fun l m => if (Z.abs spin <=? l) && (l <? el) && (Z.abs m <=? l) then u l m else g l m).
  assert (Hh : forall m, h el m = g el m).
  { intros m. unfold h. now rewrite Z.ltb_irrefl, andb_false_r. }
  apply (eq_trans (y := Ok (D (fun l m => if (l =? el) && (Z.abs m <? el + 1) then u l m else h l m)))).
  2:{ f_equal. apply mk2_ext. intros l q Hl Hq. unfold h.
      destruct (Z.eqb_spec l el) as [->|]; cbn [andb].
      - destruct (Z.leb_spec (Z.abs spin) el); [|lia]. destruct (Z.ltb_spec el (el + 1)); [|lia].
        rewrite Z.ltb_irrefl. cbn [andb].
        destruct (Z.ltb_spec (Z.abs (q - (L - 1))) (el + 1)), (Z.leb_spec (Z.abs (q - (L - 1))) el); auto; lia.
      - destruct (Z.ltb_spec l el), (Z.ltb_spec l (el + 1)); auto; lia. }
  apply (for_closed (fun k => D (fun l m => if (l =? el) && (Z.abs m <? k) then u l m else h l m)) 1 (el + 1));
    [lia| |].
  { apply mk2_ext. intros l q Hl Hq. fold (h l (q - (L - 1))).
    destruct (Z.eqb_spec l el) as [->|]; cbn [andb]; auto.
    destruct (Z.eqb_spec q (0 + L - 1)) as [->|]; destruct (Z.ltb_spec (Z.abs (q - (L - 1))) 1) || idtac.
    - replace (0 + L - 1 - (L - 1)) with 0 by lia. cbn [Z.abs Z.ltb Z.compare].
      unfold u. rewrite andb_false_r. reflexivity.
    - lia.
    - reflexivity. }
  intros m Hm. rewrite rd2_mk by lia. cbn [bind]. rewrite rd2_ok by lia. cbn [bind].
  rewrite wr2_mk by lia. cbn [bind]. rewrite Z.eqb_refl. cbn [andb].
  replace (L - 1 + m - (L - 1)) with m by lia.
  replace (Z.abs m <? m) with false by zb. rewrite Hh.
  destruct reality eqn:Er.
  - rewrite rd2_mk by lia. cbn [bind]. rewrite rd2_mk by lia. cbn [bind]. rewrite wr2_mk by lia.
    f_equal. apply mk2_ext. intros l q Hl Hq. rewrite !Z.eqb_refl. cbn [andb].
    replace (m + L - 1 =? L - 1 + m) with true by zb.
    replace (- m + L - 1 =? L - 1 + m) with false by zb.
    replace (- m + L - 1 - (L - 1)) with (- m) by lia.
    replace (Z.abs (- m) <? m) with false by zb. rewrite Hh.
    destruct (Z.eqb_spec l el) as [->|]; cbn [andb]; auto.
    destruct (Z.eqb_spec q (- m + L - 1)) as [->|].
    + replace (- m + L - 1 - (L - 1)) with (- m) by lia.
      replace (Z.abs (- m) <? m + 1) with true by zb.
      unfold u. replace (- m <? 0) with true by zb. cbn [andb].
      replace (- - m) with m by lia. reflexivity.
    + destruct (Z.eqb_spec q (L - 1 + m)) as [->|].
      * replace (L - 1 + m - (L - 1)) with m by lia. replace (Z.abs m <? m + 1) with true by zb.
        unfold u. replace (m <? 0) with false by zb. rewrite andb_false_r. reflexivity.
      * destruct (Z.ltb_spec (Z.abs (q - (L - 1))) m), (Z.ltb_spec (Z.abs (q - (L - 1))) (m + 1)); auto; lia.
  - rewrite rd2_mk by lia. cbn [bind]. rewrite rd2_ok by lia. cbn [bind]. rewrite wr2_mk by lia.
    f_equal. apply mk2_ext. intros l q Hl Hq. rewrite !Z.eqb_refl. cbn [andb].
    replace (- m + L - 1 =? L - 1 + m) with false by zb.
    replace (- m + L - 1 - (L - 1)) with (- m) by lia.
    replace (Z.abs (- m) <? m) with false by zb. rewrite Hh.
    destruct (Z.eqb_spec l el) as [->|]; cbn [andb]; auto.
    destruct (Z.eqb_spec q (- m + L - 1)) as [->|].
    + replace (- m + L - 1 - (L - 1)) with (- m) by lia.
      replace (Z.abs (- m) <? m + 1) with true by zb. reflexivity.
    + destruct (Z.eqb_spec q (L - 1 + m)) as [->|].
      * replace (L - 1 + m - (L - 1)) with m by lia. replace (Z.abs m <? m + 1) with true by zb.
        reflexivity.
      * destruct (Z.ltb_spec (Z.abs (q - (L - 1))) m), (Z.ltb_spec (Z.abs (q - (L - 1))) (m + 1)); auto; lia.
Qed.
End Sf.

(** ** The transforms *)
Section Trl.
Variables (fexp : f64 -> f64) (fpow : f64 -> Z -> f64) (flg : f64 -> f64).
Variables (L N J_min J : Z) (lam : f64) (mr : bool) (Lj Nj L0 : Z -> Z) (Ls : Z).
Hypothesis HL : 1 <= L.
Hypothesis HN : 1 <= N.
Hypothesis HJ : 0 <= J_min <= J.
Hypothesis Esz : forall j, J_min <= j <= J -> LN_j_fp fpow L j N lam mr = Ok (Lj j, Nj j, L0 j).
Hypothesis Hsz : forall j, J_min <= j <= J -> 0 <= L0 j <= Lj j /\ 1 <= Lj j <= L /\ 1 <= Nj j <= L.
Hypothesis ELs : scal_bandlimit_fp fpow L J_min lam mr = Ok Ls.
Hypothesis HLs : 1 <= Ls <= L.

Lemma construct_f64_mr s nside : sampling_ok s nside -> exists b0, construct_f_fp fpow J L N J_min lam s nside mr = Ok (map b0 (zrange J_min (J + 1))).
Proof.
  intros Hs. unfold construct_f_fp.
  assert (E : forall j, exists sh, so3_f_shape (Lj j) (Nj j) s nside = Ok sh) by (intros j; apply so3_shape_total; exact Hs).
  set (b0 := fun j => match so3_f_shape (Lj j) (Nj j) s nside with Ok sh => Nd64 sh (fun _ => creal (fint 0)) | Err _ => Nd64 [] (fun _ => creal (fint 0)) end).
  exists b0. rewrite (loop_out (fun j => Ok (b0 j))).
  - now rewrite (mapM_ok _ b0).
  - lia.
  - intros j fw Hj. unfold f_wav_j_fp. rewrite Esz by lia. cbn [bind]. unfold b0. destruct (E j) as [sh Esh]. rewrite Esh. cbn [bind].
    unfold zeros_nd64. destruct (Hsz j) as (? & ? & ?); [lia|]. rewrite (so3_shape_nonneg (Lj j) (Nj j) s nside sh) by (auto; lia). reflexivity.
Qed.

Lemma analysis_looped64_ok O f spin s nside reality psi phi : sampling_ok s nside ->
  filters_directional_fp fexp fpow flg J L N J_min lam spin 0 = Ok (psi, phi) ->
  dim0 psi = J + 1 -> dim1 psi = L -> dim2 psi = 2 * L - 1 -> len1 phi = L ->
  (forall flm, fwd64 O f L spin s nside reality = Ok flm -> rows flm = L /\ cols flm = 2 * L - 1) ->
  analysis_looped_fp fexp fpow flg O J f L N J_min lam spin 0 s nside reality mr
  = (flm <- fwd64 O f L spin s nside reality ;;
     w <- mapM (fun j => winv64 O (wloop64 L spin psi flm reality j (Lj j) (Nj j) (L0 j)) (Lj j) (Nj j) (L0 j) s reality nside) (zrange J_min (J + 1)) ;;
     sc <- inv64 O (sloop64 L spin phi flm reality Ls) Ls spin s nside reality ;;
     Ok (w, sc)).
Proof.
  intros Hs EF P0 P1 P2 Hphi Hf. unfold analysis_looped_fp. rewrite ELs. cbn [bind].
  unfold construct_flm_fp. rewrite ELs. cbn [bind]. rewrite zeros2_ok by lia. cbn [bind].
  rewrite (construct_flmn64_ok fpow L N J_min J lam mr Lj Nj L0) by auto. cbn [bind]. rewrite EF. cbn [bind].
  apply bind_ext. intros flm Ef. destruct (Hf flm Ef) as [F1 F2].
  rewrite (for_lwr (fzero Lj Nj) (fun j => wloop64 L spin psi flm reality j (Lj j) (Nj j) (L0 j))); [|lia|].
  2:{ intros j l Hj Hl. rewrite Esz by lia. cbn [bind]. rewrite Hl. cbn [bind]. destruct (Hsz j) as (? & ? & ?); [lia|].
      unfold fzero. rewrite an_scale64 by lia. reflexivity. }
  cbn [bind]. pose proof (sc_loop64 L Ls spin reality phi flm HLs Hphi F1 F2) as SC.
  match goal with |- bind ?a ?k = _ => refine (eq_trans (f_equal (fun r => bind r k) SC) _) end. cbn [bind].
  destruct (construct_f64_mr s nside Hs) as [b0 ->]. cbn [bind].
  rewrite (loop_lwr1 _ (fun j => winv64 O (wloop64 L spin psi flm reality j (Lj j) (Nj j) (L0 j)) (Lj j) (Nj j) (L0 j) s reality nside)); [reflexivity|lia|].
  intros j fw Hj. rewrite Esz by lia. cbn [bind]. rewrite lrd_map by lia. reflexivity.
Qed.

Definition synl64 (spin : Z) (psi : arr3 c64) (phi : arr1 f64) (reality : bool) (Ts : list (arr3 c64)) (S : arr2 c64) : arr2 c64 :=
  mk2 L (2 * L - 1) (fun l q =>
    sy_fin64 spin phi Ls S reality (fun l m =>
      fold_left (fun a j => lstep64 L spin psi j (Lj j) (Nj j) (L0 j) (Tnth nd30 J_min Ts j) l m a) (zrange J_min (J + 1)) (creal (fint 0))) l (q - (L - 1))).

Lemma synthesis_looped64_ok O f_wav f_scal spin s nside reality psi phi :
  filters_directional_fp fexp fpow flg J L N J_min lam spin 0 = Ok (psi, phi) ->
  dim0 psi = J + 1 -> dim1 psi = L -> dim2 psi = 2 * L - 1 -> len1 phi = L ->
  (forall S, fwd64 O f_scal Ls spin s nside reality = Ok S -> rows S = Ls /\ cols S = 2 * Ls - 1) ->
  (forall j fj T, J_min <= j <= J -> lrd f_wav (j - J_min) = Ok fj ->
     wfwd64 O fj (Lj j) (Nj j) (L0 j) s reality nside = Ok T ->
     dim0 T = 2 * Nj j - 1 /\ dim1 T = Lj j /\ dim2 T = 2 * Lj j - 1) ->
  synthesis_looped_fp fexp fpow flg O J f_wav f_scal L N J_min lam spin 0 s nside reality mr
  = (_ <- wavelet_shape_check_fp fpow J f_wav f_scal L N J_min lam s nside mr ;;
     S <- fwd64 O f_scal Ls spin s nside reality ;;
     Ts <- mapM (fun j => fj <- lrd f_wav (j - J_min) ;; wfwd64 O fj (Lj j) (Nj j) (L0 j) s reality nside) (zrange J_min (J + 1)) ;;
     inv64 O (synl64 spin psi phi reality Ts S) L spin s nside reality).
Proof.
  intros EF P0 P1 P2 Hphi HS HT. unfold synthesis_looped_fp. apply bind_ext. intros _ _.
  rewrite ELs. cbn [bind]. rewrite zeros2_ok by lia. cbn [bind]. apply bind_ext. intros S ES. rewrite EF. cbn [bind].
  rewrite (loop_fold L (2 * L - 1) nd30 _ (fun j T l q => lstep64 L spin psi j (Lj j) (Nj j) (L0 j) T l (q - (L - 1)))
    (fun j => fj <- lrd f_wav (j - J_min) ;; wfwd64 O fj (Lj j) (Nj j) (L0 j) s reality nside)); [|lia| |].
  - rewrite bind_assoc. apply bind_ext. intros Ts _. cbn [bind]. destruct (HS S ES) as [S1 S2].
    pose proof (sf_loop64 L Ls spin reality phi S HLs Hphi S1 S2 (fun l m =>
      fold_left (fun a j => lstep64 L spin psi j (Lj j) (Nj j) (L0 j) (Tnth nd30 J_min Ts j) l m a) (zrange J_min (J + 1)) (creal (fint 0)))) as E.
    match goal with |- bind ?a ?k = _ => exact (eq_trans (f_equal (fun r => bind r k) E) eq_refl) end.
  - intros j g T Hj E. apply bind_inv in E as (fj & E1 & E2). rewrite Esz by lia. cbn [bind]. rewrite E1. cbn [bind].
    rewrite E2. cbn [bind]. destruct (HT j fj T) as (T0 & T1 & T2); auto; [lia|]. destruct (Hsz j) as (? & ? & ?); [lia|].
    apply sy_scale64; lia.
  - intros j g e Hj E. rewrite Esz by lia. cbn [bind]. destruct (lrd f_wav (j - J_min)); cbn [bind] in *; [|congruence].
    rewrite E. reflexivity.
Qed.
End Trl.
