(** * Closed forms of the looped base transforms *)

From Coq Require Import ZArith Reals List Bool Lia Lra.
From Coquelicot Require Import Rcomplements Complex.
From Verif Require Import Py PyFacts ModelSamples SamplesFacts ModelFilters ModelTransforms Spec
  DirectionFacts DirFilterFacts TransformsFacts BackendFacts.
Import ListNotations.
Open Scope Z_scope.

Lemma paint2 {A} `{Zeroed A} n m f lo hi (w : Z -> Z -> Z -> bool) (v : Z -> Z -> A) body :
  (forall i g, lo <= i < hi ->
     body i (mk2 n m g) = Ok (mk2 n m (fun x y => if w i x y then v x y else g x y))) ->
  for_ (zrange lo hi) (mk2 n m f) body
  = Ok (mk2 n m (fun x y => if existsb (fun i => w i x y) (zrange lo hi) then v x y else f x y)).
Proof.
  intros Hb. destruct (Z_le_dec lo hi); [now apply for_paint2|]. now rewrite zrange_nil by lia.
Qed.
Lemma paint3 {A} `{Zeroed A} n m p f lo hi (w : Z -> Z -> Z -> Z -> bool) (v : Z -> Z -> Z -> A) body :
  (forall i g, lo <= i < hi ->
     body i (mk3 n m p g) = Ok (mk3 n m p (fun x y z => if w i x y z then v x y z else g x y z))) ->
  for_ (zrange lo hi) (mk3 n m p f) body
  = Ok (mk3 n m p (fun x y z =>
      if existsb (fun i => w i x y z) (zrange lo hi) then v x y z else f x y z)).
Proof.
  intros Hb. destruct (Z_le_dec lo hi); [now apply for_paint3|]. now rewrite zrange_nil by lia.
Qed.

Lemma step2_map N : 1 <= N ->
  zrange_st (- N + 1) N 2 = map (fun k => - N + 1 + k * 2) (zrange 0 N).
Proof.
  intros. destruct (Z.eq_dec N 0); [lia|].
  destruct (Z_lt_le_dec (- N + 1) N).
  - rewrite zrange_st_eq by lia. f_equal. f_equal.
    replace (N - (- N + 1) + 2 - 1) with (N * 2) by lia. apply Z.div_mul. lia.
  - lia.
Qed.

Lemma bool_iff (a b : bool) : (a = true <-> b = true) -> a = b.
Proof. destruct a, b; intuition congruence. Qed.

(** ** Analysis, one scale *)

(** the value the looped analysis stores for the order n, multipole l, azimuth m *)
Definition wval (L : Z) (psi : arr3 C) (flm : arr2 C) (j : Z) (n l m : Z) : C :=
  Cmult (get2 flm l (L - 1 + m))
        (Cmult (Cconj (get3 psi j l (L - 1 + n))) (RtoC (8 * (PI * PI) / IZR (2 * l + 1)))).
Definition wvalr (L : Z) (psi : arr3 C) (flm : arr2 C) (j : Z) (reality : bool) (n l m : Z) : C :=
  if reality && (m <? 0)
  then Cmult (RtoC (msgn (- m + - n))) (Cconj (wval L psi flm j (- n) l (- m)))
  else wval L psi flm j n l m.
Definition wloop (L spin : Z) (psi : arr3 C) (flm : arr2 C) (reality : bool) (j Lj Nj L0j : Z) : arr3 C :=
  mk3 (2 * Nj - 1) Lj (2 * Lj - 1) (fun a l b =>
    let n := a - (Nj - 1) in let m := b - (Lj - 1) in
    if Z.even a && (Z.max (Z.max (Z.abs spin) (Z.abs n)) L0j <=? l) && (Z.abs m <=? l)
    then wvalr L psi flm j reality n l m else RtoC 0).

(** index arithmetic around the centres of the order and azimuth axes *)
Ltac norm_ix :=
  repeat match goal with
  | |- context [?Nj - 1 + ?n - (?Nj - 1)] => replace (Nj - 1 + n - (Nj - 1)) with n by lia
  | |- context [?Nj - 1 - ?n - (?Nj - 1)] => replace (Nj - 1 - n - (Nj - 1)) with (- n) by lia
  | |- context [?Nj - 1 - (?Nj - 1)] => replace (Nj - 1 - (Nj - 1)) with 0 by lia
  | |- context [- - ?n] => replace (- - n) with n by lia
  | |- context [?a + - ?n] => replace (a + - n) with (a - n) by lia
  end; reflexivity.

Section An.
Variables (L Lj Nj L0 j spin : Z) (reality : bool) (psi : arr3 C) (flm : arr2 C).
Hypothesis HL : 0 <= L0 <= Lj.
Hypothesis HLj : 1 <= Lj <= L.
Hypothesis HN : 1 <= Nj.
Hypothesis Hj : 0 <= j < dim0 psi.
Hypothesis H1 : dim1 psi = L.
Hypothesis H2 : dim2 psi = 2 * L - 1.
Hypothesis F1 : rows flm = L.
Hypothesis F2 : cols flm = 2 * L - 1.

Definition v3 (a l b : Z) : C := wvalr L psi flm j reality (a - (Nj - 1)) l (b - (Lj - 1)).

(** positions written by the iteration (n, el, m) *)
Definition w_m (n el m a l b : Z) : bool :=
  (l =? el) &&
  (((a =? Nj - 1 + n) && (b =? Lj - 1 + m)) ||
   ((a =? (if reality then Nj - 1 - n else Nj - 1 + n)) && (b =? Lj - 1 - m))).
(** by the iteration (n, el) *)
Definition w_el (n el a l b : Z) : bool :=
  existsb (fun m => w_m n el m a l b) (zrange 1 (el + 1)) ||
  ((l =? el) && (a =? Nj - 1 + n) && (b =? Lj - 1)).

Notation D g := (mk3 (2 * Nj - 1) Lj (2 * Lj - 1) g).

Lemma an_m n el m g : - Nj < n < Nj -> 0 <= el < Lj -> 1 <= m <= el ->
  (x <- rd2 flm el (L - 1 + m) ;;
   a <- wr3 (D g) (Nj - 1 + n) el (Lj - 1 + m)
     (Cmult x (Cmult (Cconj (get3 psi j el (L - 1 + n))) (RtoC (8 * (PI * PI) / IZR (2 * el + 1))))) ;;
   if reality then
     y <- rd3 a (Nj - 1 + n) el (Lj - 1 + m) ;;
     wr3 a (Nj - 1 - n) el (Lj - 1 - m) (Cmult (RtoC (msgn (m + n))) (Cconj y))
   else
     x <- rd2 flm el (L - 1 - m) ;;
     wr3 a (Nj - 1 + n) el (Lj - 1 - m)
       (Cmult x (Cmult (Cconj (get3 psi j el (L - 1 + n))) (RtoC (8 * (PI * PI) / IZR (2 * el + 1))))))
  = Ok (D (fun a l b => if w_m n el m a l b then v3 a l b else g a l b)).
Proof.
  intros Hn Hel Hm. rewrite rd2_ok by lia. cbn [bind]. rewrite wr3_mk by lia. cbn [bind].
  unfold w_m, v3, wvalr. destruct reality eqn:Er.
  - rewrite rd3_mk by lia. cbn [bind]. rewrite wr3_mk by lia. f_equal. apply mk3_ext.
    intros a l b Ha Hl Hb. rewrite !Z.eqb_refl. cbn [andb].
    destruct (Z.eqb_spec l el) as [->|]; [|rewrite ?andb_false_r; reflexivity].
    rewrite !andb_true_r. cbn [andb].
    destruct (Z.eqb_spec a (Nj - 1 - n)), (Z.eqb_spec b (Lj - 1 - m)); cbn [andb orb]; subst;
      rewrite ?orb_true_r, ?orb_false_r.
    + replace (Lj - 1 - m - (Lj - 1) <? 0) with true by zb.
      unfold wval. replace (- (Lj - 1 - m - (Lj - 1))) with m by lia.
      replace (- (Nj - 1 - n - (Nj - 1))) with n by lia. reflexivity.
    + destruct (Z.eqb_spec b (Lj - 1 + m)); rewrite ?andb_false_r, ?andb_true_r; auto.
      destruct (Z.eqb_spec (Nj - 1 - n) (Nj - 1 + n)); auto. subst b.
      replace (Lj - 1 + m - (Lj - 1) <? 0) with false by zb. assert (n = 0) by lia. subst n.
      unfold wval. replace (Nj - 1 - 0 - (Nj - 1)) with 0 by lia. norm_ix.
    + destruct (Z.eqb_spec (Lj - 1 - m) (Lj - 1 + m)); [lia|]. now rewrite andb_false_r.
    + destruct (Z.eqb_spec a (Nj - 1 + n)); cbn [andb]; auto.
      destruct (Z.eqb_spec b (Lj - 1 + m)); cbn [andb]; auto. subst.
      replace (Lj - 1 + m - (Lj - 1) <? 0) with false by zb. unfold wval; norm_ix.
  - rewrite rd2_ok by lia. cbn [bind]. rewrite wr3_mk by lia. f_equal. apply mk3_ext.
    intros a l b Ha Hl Hb. cbn [andb].
    destruct (Z.eqb_spec l el) as [->|]; [|rewrite ?andb_false_r; reflexivity].
    rewrite !andb_true_r. cbn [andb].
    destruct (Z.eqb_spec a (Nj - 1 + n)); cbn [andb orb]; auto. subst a.
    destruct (Z.eqb_spec b (Lj - 1 - m)); subst; rewrite ?orb_true_r, ?orb_false_r.
    + unfold wval; norm_ix.
    + destruct (Z.eqb_spec b (Lj - 1 + m)); subst; auto. unfold wval; norm_ix.
Qed.

Lemma an_el n el g : - Nj < n < Nj -> Z.abs n <= el < Lj ->
  (w <- rd3 psi j el (L - 1 + n) ;;
   let psi := Cmult (Cconj w) (RtoC (8 * (PI * PI) / IZR (2 * el + 1))) in
   x <- rd2 flm el (L - 1 + 0) ;;
   a <- wr3 (D g) (Nj - 1 + n) el (Lj - 1) (Cmult x psi) ;;
   for_ (zrange 1 (el + 1)) a (fun m a =>
     x <- rd2 flm el (L - 1 + m) ;;
     a <- wr3 a (Nj - 1 + n) el (Lj - 1 + m) (Cmult x psi) ;;
     if reality then
       y <- rd3 a (Nj - 1 + n) el (Lj - 1 + m) ;;
       wr3 a (Nj - 1 - n) el (Lj - 1 - m) (Cmult (RtoC (msgn (m + n))) (Cconj y))
     else
       x <- rd2 flm el (L - 1 - m) ;;
       wr3 a (Nj - 1 + n) el (Lj - 1 - m) (Cmult x psi)))
  = Ok (D (fun a l b => if w_el n el a l b then v3 a l b else g a l b)).
Proof.
  intros Hn Hel. rewrite rd3_ok by lia. cbn [bind]. cbv zeta. rewrite rd2_ok by lia. cbn [bind].
  rewrite wr3_mk by lia. cbn [bind].
  rewrite (paint3 (2 * Nj - 1) Lj (2 * Lj - 1) _ 1 (el + 1) (w_m n el) v3).
  2:{ intros m g' Hm. apply an_m; lia. }
  f_equal. apply mk3_ext. intros a l b Ha Hl Hb. unfold w_el.
  destruct (existsb _ _); cbn [orb]; auto.
  destruct (Z.eqb_spec a (Nj - 1 + n)), (Z.eqb_spec l el), (Z.eqb_spec b (Lj - 1)); cbn [andb]; auto.
  subst. unfold v3, wvalr. replace (Lj - 1 - (Lj - 1) <? 0) with false by zb. rewrite andb_false_r.
  unfold wval; norm_ix.
Qed.

Lemma an_scale :
  for_ (zrange_st (- Nj + 1) Nj 2) (D (fun _ _ _ => RtoC 0)) (fun n a =>
    for_ (zrange (Z.max (Z.max (Z.abs spin) (Z.abs n)) L0) Lj) a (fun el a =>
      w <- rd3 psi j el (L - 1 + n) ;;
      let psi := Cmult (Cconj w) (RtoC (8 * (PI * PI) / IZR (2 * el + 1))) in
      x <- rd2 flm el (L - 1 + 0) ;;
      a <- wr3 a (Nj - 1 + n) el (Lj - 1) (Cmult x psi) ;;
      for_ (zrange 1 (el + 1)) a (fun m a =>
        x <- rd2 flm el (L - 1 + m) ;;
        a <- wr3 a (Nj - 1 + n) el (Lj - 1 + m) (Cmult x psi) ;;
        if reality then
          y <- rd3 a (Nj - 1 + n) el (Lj - 1 + m) ;;
          wr3 a (Nj - 1 - n) el (Lj - 1 - m) (Cmult (RtoC (msgn (m + n))) (Cconj y))
        else
          x <- rd2 flm el (L - 1 - m) ;;
          wr3 a (Nj - 1 + n) el (Lj - 1 - m) (Cmult x psi))))
  = Ok (wloop L spin psi flm reality j Lj Nj L0).
Proof.
  rewrite step2_map by lia. rewrite for_map.
  set (lo := fun n => Z.max (Z.max (Z.abs spin) (Z.abs n)) L0).
  rewrite (paint3 (2 * Nj - 1) Lj (2 * Lj - 1) _ 0 Nj
    (fun k a l b => existsb (fun el => w_el (- Nj + 1 + k * 2) el a l b)
                            (zrange (lo (- Nj + 1 + k * 2)) Lj)) v3).
  2:{ intros k g Hk. apply paint3. intros el g' Hel. apply an_el; unfold lo in *; lia. }
  f_equal. unfold wloop. apply mk3_ext. intros a l b Ha Hl Hb. cbv zeta.
  match goal with |- (if ?c then _ else _) = (if ?d then _ else _) =>
    replace c with d; [reflexivity|]; apply bool_iff end.
  rewrite !andb_true_iff, !Z.leb_le. rewrite existsb_zrange. split.
  - intros [[Ea Hmax] Hm].
    assert (Ha' : a = 2 * (a / 2)).
    { pose proof (Z.div_mod a 2 ltac:(lia)). rewrite Zmod_even, Ea in *. lia. }
    set (m := b - (Lj - 1)) in *. set (n := a - (Nj - 1)) in *.
    destruct (Z_lt_le_dec m 0) as [Hneg|Hpos].
    + (* a negative order: written by n (not reality) or -n (reality) *)
      exists (if reality then Nj - 1 - a / 2 else a / 2).
      split; [destruct reality; lia|].
      apply existsb_zrange. exists l. split; [unfold lo; destruct reality; lia|].
      unfold w_el. apply orb_true_iff. left. apply existsb_zrange. exists (- m).
      split; [lia|]. unfold w_m. rewrite Z.eqb_refl. cbn [andb]. apply orb_true_iff. right.
      apply andb_true_iff. split; apply Z.eqb_eq; [|lia]. destruct reality; lia.
    + exists (a / 2). split; [lia|]. apply existsb_zrange. exists l. split; [unfold lo; lia|].
      unfold w_el. apply orb_true_iff. destruct (Z.eq_dec m 0).
      * right. rewrite Z.eqb_refl. cbn [andb]. apply andb_true_iff.
        split; apply Z.eqb_eq; lia.
      * left. apply existsb_zrange. exists m. split; [lia|]. unfold w_m. rewrite Z.eqb_refl.
        cbn [andb]. apply orb_true_iff. left. apply andb_true_iff. split; apply Z.eqb_eq; lia.
  - intros (k & Hk & E). apply existsb_zrange in E as (el & Hel & E). unfold lo in Hel.
    unfold w_el in E. apply orb_true_iff in E as [E|E].
    + apply existsb_zrange in E as (m & Hm & E). unfold w_m in E.
      apply andb_true_iff in E as [El E]. apply Z.eqb_eq in El. subst el.
      apply orb_true_iff in E as [E|E]; apply andb_true_iff in E as [E1 E2];
        apply Z.eqb_eq in E1, E2.
      * assert (Ea : a = 2 * k) by lia. rewrite Ea, Z.even_mul. cbn [Z.even orb]. lia.
      * destruct reality.
        -- assert (Ea : a = 2 * (Nj - 1 - k)) by lia. rewrite Ea, Z.even_mul. cbn [Z.even orb]. lia.
        -- assert (Ea : a = 2 * k) by lia. rewrite Ea, Z.even_mul. cbn [Z.even orb]. lia.
    + apply andb_true_iff in E as [E E3]. apply andb_true_iff in E as [E1 E2].
      apply Z.eqb_eq in E1, E2, E3. assert (Ea : a = 2 * k) by lia. rewrite Ea, Z.even_mul.
      cbn [Z.even orb]. lia.
Qed.
End An.

(** ** Scaling coefficients of the looped analysis *)

Definition pval (phi : arr1 R) (l : Z) : C := RtoC (sqrt (4 * PI / IZR (2 * l + 1)) * get1 phi l).
Definition svalr (L : Z) (phi : arr1 R) (flm : arr2 C) (reality : bool) (l m : Z) : C :=
  if reality && (m <? 0)
  then Cmult (RtoC (msgn (- m))) (Cconj (Cmult (get2 flm l (L - 1 + - m)) (pval phi l)))
  else Cmult (get2 flm l (L - 1 + m)) (pval phi l).
Definition sloop (L spin : Z) (phi : arr1 R) (flm : arr2 C) (reality : bool) (Ls : Z) : arr2 C :=
  mk2 Ls (2 * Ls - 1) (fun l b =>
    let m := b - (Ls - 1) in
    if (Z.abs spin <=? l) && (Z.abs m <=? l) then svalr L phi flm reality l m else RtoC 0).

Section Sc.
Variables (L Ls spin : Z) (reality : bool) (phi : arr1 R) (flm : arr2 C).
Hypothesis HLs : 1 <= Ls <= L.
Hypothesis Hphi : len1 phi = L.
Hypothesis F1 : rows flm = L.
Hypothesis F2 : cols flm = 2 * L - 1.

Notation D g := (mk2 Ls (2 * Ls - 1) g).

Lemma sc_loop :
  for_ (zrange (Z.abs spin) Ls) (D (fun _ _ => RtoC 0)) (fun el f_scal_lm =>
    sl <- rd1 phi el ;;
    let phi := RtoC (sqrt (4 * PI / IZR (2 * el + 1)) * sl) in
    x <- rd2 flm el (L - 1 + 0) ;;
    f_scal_lm <- wr2 f_scal_lm el (Ls - 1 + 0) (Cmult x phi) ;;
    for_ (zrange 1 (el + 1)) f_scal_lm (fun m f_scal_lm =>
      x <- rd2 flm el (L - 1 + m) ;;
      f_scal_lm <- wr2 f_scal_lm el (Ls - 1 + m) (Cmult x phi) ;;
      if reality then
        y <- rd2 f_scal_lm el (Ls - 1 + m) ;;
        wr2 f_scal_lm el (Ls - 1 - m) (Cmult (RtoC (msgn m)) (Cconj y))
      else
        x <- rd2 flm el (L - 1 - m) ;;
        wr2 f_scal_lm el (Ls - 1 - m) (Cmult x phi)))
  = Ok (sloop L spin phi flm reality Ls).
Proof.
  set (v := fun l b => svalr L phi flm reality l (b - (Ls - 1))).
  rewrite (paint2 Ls (2 * Ls - 1) _ (Z.abs spin) Ls
    (fun el l b => (l =? el) && (Z.abs (b - (Ls - 1)) <=? el)) v).
  - f_equal. unfold sloop. apply mk2_ext. intros l b Hl Hb. cbv zeta.
    match goal with |- (if ?c then _ else _) = (if ?d then _ else _) =>
      replace c with d; [reflexivity|]; apply bool_iff end.
    rewrite existsb_zrange, andb_true_iff, !Z.leb_le. split.
    + intros [A1 A2]. exists l. split; [lia|]. rewrite Z.eqb_refl. cbn [andb]. now apply Z.leb_le.
    + intros (el & Hel & E). apply andb_true_iff in E as [E1 E2].
      apply Z.eqb_eq in E1. apply Z.leb_le in E2. lia.
  - intros el g Hel. rewrite rd1_ok by lia. cbn [bind]. cbv zeta. rewrite rd2_ok by lia. cbn [bind].
    rewrite wr2_mk by lia. cbn [bind]. fold (pval phi el).
    rewrite (paint2 Ls (2 * Ls - 1) _ 1 (el + 1)
      (fun m l b => (l =? el) && (Z.abs (b - (Ls - 1)) =? m)) v).
    + f_equal. apply mk2_ext. intros l b Hl Hb.
      destruct (existsb _ _) eqn:E.
      * apply existsb_zrange in E as (m & Hm & E). apply andb_true_iff in E as [E1 E2].
        apply Z.eqb_eq in E1, E2. subst. rewrite Z.eqb_refl. cbn [andb].
        destruct (Z.leb_spec (Z.abs (b - (Ls - 1))) el); [reflexivity|lia].
      * destruct (Z.eqb_spec l el) as [->|]; cbn [andb]; auto.
        destruct (Z.eqb_spec b (Ls - 1 + 0)) as [->|Hb0].
        -- destruct (Z.leb_spec (Z.abs (Ls - 1 + 0 - (Ls - 1))) el); [|lia].
           unfold v, svalr. replace (Ls - 1 + 0 - (Ls - 1) <? 0) with false by zb.
           rewrite andb_false_r. norm_ix.
        -- destruct (Z.leb_spec (Z.abs (b - (Ls - 1))) el); auto. exfalso.
           apply not_true_iff_false in E. apply E.
           apply existsb_zrange. exists (Z.abs (b - (Ls - 1))). rewrite !Z.eqb_refl. split; auto. lia.
    + intros m g' Hm. rewrite rd2_ok by lia. cbn [bind]. rewrite wr2_mk by lia. cbn [bind].
      destruct reality eqn:Er.
      * rewrite rd2_mk by lia. cbn [bind]. rewrite wr2_mk by lia. f_equal. apply mk2_ext.
        intros l b Hl Hb. rewrite !Z.eqb_refl. cbn [andb].
        destruct (Z.eqb_spec l el) as [->|]; cbn [andb]; auto.
        unfold v, svalr. cbn [andb].
        destruct (Z.eqb_spec b (Ls - 1 - m)) as [->|].
        -- destruct (Z.eqb_spec (Z.abs (Ls - 1 - m - (Ls - 1))) m); [|lia].
           replace (Ls - 1 - m - (Ls - 1) <? 0) with true by zb.
           replace (- (Ls - 1 - m - (Ls - 1))) with m by lia. reflexivity.
        -- destruct (Z.eqb_spec b (Ls - 1 + m)) as [->|].
           ++ destruct (Z.eqb_spec (Z.abs (Ls - 1 + m - (Ls - 1))) m); [|lia].
              replace (Ls - 1 + m - (Ls - 1) <? 0) with false by zb. norm_ix.
           ++ destruct (Z.eqb_spec (Z.abs (b - (Ls - 1))) m); [lia|reflexivity].
      * rewrite rd2_ok by lia. cbn [bind]. rewrite wr2_mk by lia. f_equal. apply mk2_ext.
        intros l b Hl Hb.
        destruct (Z.eqb_spec l el) as [->|]; cbn [andb]; auto.
        unfold v, svalr. cbn [andb].
        destruct (Z.eqb_spec b (Ls - 1 - m)) as [->|].
        -- destruct (Z.eqb_spec (Z.abs (Ls - 1 - m - (Ls - 1))) m); [|lia]. norm_ix.
        -- destruct (Z.eqb_spec b (Ls - 1 + m)) as [->|].
           ++ destruct (Z.eqb_spec (Z.abs (Ls - 1 + m - (Ls - 1))) m); [|lia]. norm_ix.
           ++ destruct (Z.eqb_spec (Z.abs (b - (Ls - 1))) m); [lia|reflexivity].
Qed.
End Sc.

(** overwrite loop of a single output list *)
Lemma loop_lwr1 {A} (b0 : Z -> A) (f : Z -> res A) lo hi body :
  lo <= hi ->
  (forall j fw, lo <= j < hi -> body j fw = (y <- f j ;; lwr fw (j - lo) y)) ->
  for_ (zrange lo hi) (map b0 (zrange lo hi)) body = mapM f (zrange lo hi).
Proof.
  intros Hle Hb.
  destruct (for_mapM (fun k ys (s : list A) =>
      length ys = Z.to_nat (k - lo) /\ s = ys ++ map b0 (zrange k hi)) f lo hi
      (map b0 (zrange lo hi)) body)
    as [(e & E1 & E2)|(ys & s' & E1 & E2 & E3 & E4)]; auto.
  - split; [simpl; lia|reflexivity].
  - intros i ys s Hi (Hl & ->). rewrite Hb by assumption.
    destruct (f i) as [y|e]; cbn [bind]; [right|left]; eauto.
    exists y, ((ys ++ [y]) ++ map b0 (zrange (i + 1) hi)). split; auto. split.
    + rewrite (zrange_cons i hi) by lia. cbn [map]. unfold lwr.
      rewrite app_length. cbn [length]. rewrite map_length, zrange_length.
      rewrite idx_ok by lia. cbn [bind]. f_equal. rewrite <- Hl. clear.
      induction ys; simpl; auto. now rewrite IHys.
    + split; auto. rewrite app_length. cbn [length]. lia.
  - now rewrite E1, E2.
  - rewrite E1, E2, E4. rewrite zrange_nil by lia. cbn [map]. now rewrite app_nil_r.
Qed.

(** ** Looped synthesis *)

Lemma csumZ_single lo hi k f :
  csumZ lo hi (fun i => if i =? k then f i else RtoC 0)
  = if (lo <=? k) && (k <? hi) then f k else RtoC 0.
Proof.
  destruct (Z.leb_spec lo k), (Z.ltb_spec k hi); cbn [andb].
  2-4: apply csumZ_zero; intros i Hi; destruct (Z.eqb_spec i k); auto; lia.
  rewrite (csumZ_widen lo k (k + 1) hi) by (lia || (intros i Hi Hn; destruct (Z.eqb_spec i k); auto; lia)).
  rewrite csumZ_S, csumZ_nil by lia. rewrite Z.eqb_refl. ring.
Qed.

Lemma add2 n m f lo hi (d : Z -> Z -> Z -> C) body :
  (forall i g, lo <= i < hi ->
     body i (mk2 n m g) = Ok (mk2 n m (fun x y => Cplus (g x y) (d i x y)))) ->
  for_ (zrange lo hi) (mk2 n m f) body
  = Ok (mk2 n m (fun x y => Cplus (f x y) (csumZ lo hi (fun i => d i x y)))).
Proof.
  intros Hb. destruct (Z_le_dec lo hi) as [Hle|Hgt].
  - apply (for_closed (fun k => mk2 n m (fun x y => Cplus (f x y) (csumZ lo k (fun i => d i x y)))) lo hi);
      auto.
    + apply mk2_ext. intros. rewrite csumZ_nil by lia. ring.
    + intros i Hi. rewrite Hb by lia. f_equal. apply mk2_ext. intros. rewrite csumZ_S by lia. ring.
  - rewrite zrange_nil by lia. simpl for_. f_equal. apply mk2_ext. intros. rewrite csumZ_nil by lia. ring.
Qed.

(** contribution of the Wigner coefficients T of scale j *)
Definition wpart_loop (L spin : Z) (psi : arr3 C) (j Lj Nj L0j : Z) (T : arr3 C) (l m : Z) : C :=
  if Z.abs m <=? l then
    csumZ (- Nj + 1) Nj (fun n =>
      if Z.even (n - (Nj - 1)) && (Z.max (Z.max (Z.abs spin) (Z.abs n)) L0j <=? l) && (l <? Lj)
      then Cmult (get3 T (Nj - 1 + n) l (Lj - 1 + m)) (get3 psi j l (L - 1 + n)) else RtoC 0)
  else RtoC 0.

Section Sy.
Variables (L Lj Nj L0 j spin : Z) (psi : arr3 C) (T : arr3 C).
Hypothesis HL : 0 <= L0 <= Lj.
Hypothesis HLj : 1 <= Lj <= L.
Hypothesis HN : 1 <= Nj.
Hypothesis Hj : 0 <= j < dim0 psi.
Hypothesis H1 : dim1 psi = L.
Hypothesis H2 : dim2 psi = 2 * L - 1.
Hypothesis T0 : dim0 T = 2 * Nj - 1.
Hypothesis T1 : dim1 T = Lj.
Hypothesis T2 : dim2 T = 2 * Lj - 1.

Notation D g := (mk2 L (2 * L - 1) g).

Lemma sy_scale g :
  for_ (zrange_st (- Nj + 1) Nj 2) (D g) (fun n flm =>
    for_ (zrange (Z.max (Z.max (Z.abs spin) (Z.abs n)) L0) Lj) flm (fun el flm =>
      p <- rd3 psi j el (L - 1 + n) ;;
      for_ (zrange (- el) (el + 1)) flm (fun m flm =>
        x <- rd2 flm el (L - 1 + m) ;;
        t <- rd3 T (Nj - 1 + n) el (Lj - 1 + m) ;;
        wr2 flm el (L - 1 + m) (Cplus x (Cmult t p)))))
  = Ok (D (fun l q => Cplus (g l q) (wpart_loop L spin psi j Lj Nj L0 T l (q - (L - 1))))).
Proof.
  rewrite step2_map by lia. rewrite for_map.
  set (t := fun n el m => Cmult (get3 T (Nj - 1 + n) el (Lj - 1 + m)) (get3 psi j el (L - 1 + n))).
  set (lo := fun n => Z.max (Z.max (Z.abs spin) (Z.abs n)) L0).
  set (d2 := fun n el x y => if (el =? x) && (Z.abs (y - (L - 1)) <=? el) then t n el (y - (L - 1)) else RtoC 0).
  rewrite (add2 L (2 * L - 1) g 0 Nj
    (fun k x y => csumZ (lo (- Nj + 1 + k * 2)) Lj (fun el => d2 (- Nj + 1 + k * 2) el x y))).
  - f_equal. apply mk2_ext. intros l q Hl Hq. f_equal. unfold wpart_loop.
    set (m := q - (L - 1)).
    assert (E : forall n, csumZ (lo n) Lj (fun el => d2 n el l q)
              = if (Z.abs m <=? l) && ((lo n <=? l) && (l <? Lj)) then t n l m else RtoC 0).
    { intros n. unfold d2.
      rewrite (csumZ_ext _ _ _ (fun el => if el =? l then
         (if Z.abs m <=? l then t n l m else RtoC 0) else RtoC 0)).
      2:{ intros el _. destruct (Z.eqb_spec el l) as [->|]; reflexivity. }
      rewrite csumZ_single. destruct (Z.abs m <=? l), (_ && _); reflexivity. }
    rewrite (csumZ_ext 0 Nj _ (fun k => if (Z.abs m <=? l) && ((lo (- Nj + 1 + k * 2) <=? l) && (l <? Lj))
       then t (- Nj + 1 + k * 2) l m else RtoC 0)) by (intros; apply E).
    destruct (Z.abs m <=? l); cbn [andb].
    2:{ apply csumZ_zero. auto. }
    transitivity (csumZ (- Nj + 1) Nj (fun n => if Z.even (n - (Nj - 1)) then
       (if (lo n <=? l) && (l <? Lj) then t n l m else RtoC 0) else RtoC 0)).
    + rewrite csumZ_step2 by lia. rewrite csumZ_zcsum. rewrite Z.sub_0_r. apply zcsum_ext.
      intros k Hk. cbn [Z.add]. replace (- Nj + 1 + 2 * k) with (- Nj + 1 + k * 2) by lia. reflexivity.
    + apply csumZ_ext. intros n _. unfold lo, t. destruct (Z.even _); reflexivity.
  - intros k g1 Hk. apply add2. intros el g2 Hel. unfold lo in Hel. set (n := - Nj + 1 + k * 2) in *.
    rewrite rd3_ok by lia. cbn [bind].
    rewrite (add2 L (2 * L - 1) g2 (- el) (el + 1)
      (fun m x y => if m =? y - (L - 1) then (if el =? x then t n el m else RtoC 0) else RtoC 0)).
    + f_equal. apply mk2_ext. intros x y Hx Hy. f_equal.
      rewrite csumZ_single. unfold d2.
      destruct (Z.eqb_spec el x) as [->|]; cbn [andb]; [|destruct (_ && _); reflexivity].
      destruct (Z.leb_spec (- x) (y - (L - 1))), (Z.ltb_spec (y - (L - 1)) (x + 1)); cbn [andb];
        (destruct (Z.leb_spec (Z.abs (y - (L - 1))) x)); auto; lia.
    + intros m g3 Hm. rewrite rd2_mk by lia. cbn [bind]. rewrite rd3_ok by lia. cbn [bind].
      rewrite wr2_mk by lia. f_equal. apply mk2_ext. intros x y Hx Hy.
      destruct (Z.eqb_spec x el) as [->|Hne]; cbn [andb].
      * destruct (Z.eqb_spec y (L - 1 + m)) as [->|].
        -- replace (L - 1 + m - (L - 1)) with m by lia. rewrite !Z.eqb_refl. reflexivity.
        -- destruct (Z.eqb_spec m (y - (L - 1))); [lia|]. ring.
      * destruct (Z.eqb_spec m (y - (L - 1))); [|ring]. destruct (Z.eqb_spec el x); [lia|]. ring.
Qed.
End Sy.

(** the scaling loop applied to the accumulated wavelet part g *)
Definition sy_fin (L spin : Z) (phi : arr1 R) (Ls : Z) (S : arr2 C) (reality : bool)
    (g : Z -> Z -> C) (l m : Z) : C :=
  if (Z.abs spin <=? l) && (l <? Ls) && (Z.abs m <=? l) then
    if reality && (m <? 0)
    then Cplus (g l m) (Cmult (RtoC (msgn (- m)))
                 (Cconj (Cplus (g l (- m)) (Cmult (get2 S l (Ls - 1 + - m)) (pval phi l)))))
    else Cplus (g l m) (Cmult (get2 S l (Ls - 1 + m)) (pval phi l))
  else g l m.

Section Sf.
Variables (L Ls spin : Z) (reality : bool) (phi : arr1 R) (S : arr2 C).
Hypothesis HLs : 1 <= Ls <= L.
Hypothesis Hphi : len1 phi = L.
Hypothesis S1 : rows S = Ls.
Hypothesis S2 : cols S = 2 * Ls - 1.

Notation D g := (mk2 L (2 * L - 1) (fun l q => g l (q - (L - 1)))).

Lemma sf_loop (g : Z -> Z -> C) :
  for_ (zrange (Z.abs spin) Ls) (D g) (fun el flm =>
    sl <- rd1 phi el ;;
    let phi := RtoC (sqrt (4 * PI / IZR (2 * el + 1)) * sl) in
    x <- rd2 flm el (0 + L - 1) ;;
    y <- rd2 S el (Ls - 1 + 0) ;;
    flm <- wr2 flm el (0 + L - 1) (Cplus x (Cmult y phi)) ;;
    for_ (zrange 1 (el + 1)) flm (fun m flm =>
      x <- rd2 flm el (L - 1 + m) ;;
      y <- rd2 S el (Ls - 1 + m) ;;
      flm <- wr2 flm el (L - 1 + m) (Cplus x (Cmult y phi)) ;;
      if reality then
        z <- rd2 flm el (m + L - 1) ;;
        x <- rd2 flm el (- m + L - 1) ;;
        wr2 flm el (- m + L - 1) (Cplus x (Cmult (RtoC (msgn m)) (Cconj z)))
      else
        x <- rd2 flm el (- m + L - 1) ;;
        y <- rd2 S el (Ls - 1 - m) ;;
        wr2 flm el (- m + L - 1) (Cplus x (Cmult y phi))))
  = Ok (D (sy_fin L spin phi Ls S reality g)).
Proof.
  set (u := fun l m => if reality && (m <? 0)
    then Cplus (g l m) (Cmult (RtoC (msgn (- m)))
                 (Cconj (Cplus (g l (- m)) (Cmult (get2 S l (Ls - 1 + - m)) (pval phi l)))))
    else Cplus (g l m) (Cmult (get2 S l (Ls - 1 + m)) (pval phi l))).
  destruct (Z_le_dec (Z.abs spin) Ls) as [Hsp|Hsp].
  2:{ rewrite zrange_nil by lia. simpl for_. f_equal. apply mk2_ext. intros l q Hl Hq. unfold sy_fin.
      destruct (Z.leb_spec (Z.abs spin) l), (Z.ltb_spec l Ls); cbn [andb]; auto; lia. }
  apply (eq_trans (y := Ok (D (fun l m => if (Z.abs spin <=? l) && (l <? Ls) && (Z.abs m <=? l)
    then u l m else g l m)))); [|reflexivity].
  apply (for_closed (fun k => D (fun l m => if (Z.abs spin <=? l) && (l <? k) && (Z.abs m <=? l)
    then u l m else g l m)) (Z.abs spin) Ls); auto.
  { apply mk2_ext. intros l q Hl Hq.
    destruct (Z.leb_spec (Z.abs spin) l), (Z.ltb_spec l (Z.abs spin)); cbn [andb]; auto; lia. }
  intros el Hel. rewrite rd1_ok by lia. cbn [bind]. cbv zeta. fold (pval phi el).
  rewrite rd2_mk by lia. cbn [bind]. rewrite rd2_ok by lia. cbn [bind].
  rewrite wr2_mk by lia. cbn [bind]. rewrite Z.ltb_irrefl, !andb_false_r. cbn [andb].
  set (h := fun l m => if (Z.abs spin <=? l) && (l <? el) && (Z.abs m <=? l) then u l m else g l m).
  assert (Hh : forall m, h el m = g el m).
  { intros m. unfold h. now rewrite Z.ltb_irrefl, andb_false_r. }
  apply (eq_trans (y := Ok (D (fun l m => if (l =? el) && (Z.abs m <? el + 1) then u l m else h l m)))).
  2:{ f_equal. apply mk2_ext. intros l q Hl Hq. unfold h.
      destruct (Z.eqb_spec l el) as [->|]; cbn [andb].
      - destruct (Z.leb_spec (Z.abs spin) el); [|lia]. destruct (Z.ltb_spec el (el + 1)); [|lia].
        rewrite Z.ltb_irrefl. cbn [andb].
        destruct (Z.ltb_spec (Z.abs (q - (L - 1))) (el + 1)), (Z.leb_spec (Z.abs (q - (L - 1))) el); auto; lia.
      - destruct (Z.ltb_spec l el), (Z.ltb_spec l (el + 1)); auto; lia. }
  apply (for_closed (fun k => D (fun l m => if (l =? el) && (Z.abs m <? k) then u l m else h l m)) 1 (el + 1));
    [lia| |].
  { apply mk2_ext. intros l q Hl Hq. fold (h l (q - (L - 1))).
    destruct (Z.eqb_spec l el) as [->|]; cbn [andb]; auto.
    destruct (Z.eqb_spec q (0 + L - 1)) as [->|]; destruct (Z.ltb_spec (Z.abs (q - (L - 1))) 1) || idtac.
    - replace (0 + L - 1 - (L - 1)) with 0 by lia. cbn [Z.abs Z.ltb Z.compare].
      unfold u. rewrite andb_false_r. reflexivity.
    - lia.
    - reflexivity. }
  intros m Hm. rewrite rd2_mk by lia. cbn [bind]. rewrite rd2_ok by lia. cbn [bind].
  rewrite wr2_mk by lia. cbn [bind]. rewrite Z.eqb_refl. cbn [andb].
  replace (L - 1 + m - (L - 1)) with m by lia.
  replace (Z.abs m <? m) with false by zb. rewrite Hh.
  destruct reality eqn:Er.
  - rewrite rd2_mk by lia. cbn [bind]. rewrite rd2_mk by lia. cbn [bind]. rewrite wr2_mk by lia.
    f_equal. apply mk2_ext. intros l q Hl Hq. rewrite !Z.eqb_refl. cbn [andb].
    replace (m + L - 1 =? L - 1 + m) with true by zb.
    replace (- m + L - 1 =? L - 1 + m) with false by zb.
    replace (- m + L - 1 - (L - 1)) with (- m) by lia.
    replace (Z.abs (- m) <? m) with false by zb. rewrite Hh.
    destruct (Z.eqb_spec l el) as [->|]; cbn [andb]; auto.
    destruct (Z.eqb_spec q (- m + L - 1)) as [->|].
    + replace (- m + L - 1 - (L - 1)) with (- m) by lia.
      replace (Z.abs (- m) <? m + 1) with true by zb.
      unfold u. replace (- m <? 0) with true by zb. cbn [andb].
      replace (- - m) with m by lia. reflexivity.
    + destruct (Z.eqb_spec q (L - 1 + m)) as [->|].
      * replace (L - 1 + m - (L - 1)) with m by lia. replace (Z.abs m <? m + 1) with true by zb.
        unfold u. replace (m <? 0) with false by zb. rewrite andb_false_r. reflexivity.
      * destruct (Z.ltb_spec (Z.abs (q - (L - 1))) m), (Z.ltb_spec (Z.abs (q - (L - 1))) (m + 1)); auto; lia.
  - rewrite rd2_mk by lia. cbn [bind]. rewrite rd2_ok by lia. cbn [bind]. rewrite wr2_mk by lia.
    f_equal. apply mk2_ext. intros l q Hl Hq. rewrite !Z.eqb_refl. cbn [andb].
    replace (- m + L - 1 =? L - 1 + m) with false by zb.
    replace (- m + L - 1 - (L - 1)) with (- m) by lia.
    replace (Z.abs (- m) <? m) with false by zb. rewrite Hh.
    destruct (Z.eqb_spec l el) as [->|]; cbn [andb]; auto.
    destruct (Z.eqb_spec q (- m + L - 1)) as [->|].
    + replace (- m + L - 1 - (L - 1)) with (- m) by lia.
      replace (Z.abs (- m) <? m + 1) with true by zb. reflexivity.
    + destruct (Z.eqb_spec q (L - 1 + m)) as [->|].
      * replace (L - 1 + m - (L - 1)) with m by lia. replace (Z.abs m <? m + 1) with true by zb.
        reflexivity.
      * destruct (Z.ltb_spec (Z.abs (q - (L - 1))) m), (Z.ltb_spec (Z.abs (q - (L - 1))) (m + 1)); auto; lia.
Qed.
End Sf.

Lemma sz_facts0 L N J lam mr : 1 <= L -> 1 <= N -> (1 < lam)%R -> j_max L lam = Ok J -> forall j, 0 <= j <= J ->
  0 <= L0_of j lam mr <= Lj_of L j lam mr /\ 1 <= Lj_of L j lam mr <= L /\ 1 <= Nj_of L j N lam mr <= N.
Proof.
  intros HL HN Hlam EJ j Hj. assert (Hl : (0 < lam)%R) by lra.
  pose proof (Lj_range L j lam mr HL Hl). pose proof (L0_nonneg j lam mr Hl).
  destruct (Nj_facts L j N lam mr HL Hl ltac:(lia)) as (_ & _ & H1 & _).
  pose proof (L0_le_Lj L j j lam mr J HL Hlam EJ ltac:(lia) ltac:(lia) ltac:(lia)). lia.
Qed.

Section Trl.
Variables (L N J_min J : Z) (lam : R) (mr : bool).
Hypothesis HL : 1 <= L.
Hypothesis HN : 1 <= N.
Hypothesis Hlam : (1 < lam)%R.
Hypothesis EJ : j_max L lam = Ok J.
Hypothesis HJ : 0 <= J_min.

Notation Lj j := (Lj_of L j lam mr).
Notation Nj j := (Nj_of L j N lam mr).
Notation L0 j := (L0_of j lam mr).
Notation Ls := (Ls_of L J_min lam mr).
Notation lam0 := (lam0 lam Hlam).

(** base.py: analysis_looped *)
Lemma analysis_looped_ok O f spin spin0 s nside reality psi phi :
  J_min <= J -> sampling_ok s nside ->
  filters_directional L N J_min lam spin spin0 = Ok (psi, phi) ->
  psi_sh L J psi -> len1 phi = L ->
  (forall flm, b_fwd O f L spin s nside reality = Ok flm -> flm_sh L flm) ->
  analysis_looped O f L N J_min lam spin spin0 s nside reality mr
  = (flm <- b_fwd O f L spin s nside reality ;;
     w <- mapM (fun j => b_winv O (wloop L spin psi flm reality j (Lj j) (Nj j) (L0 j))
                           (Lj j) (Nj j) (L0 j) s reality nside)
               (zrange J_min (J + 1)) ;;
     sc <- b_inv O (sloop L spin phi flm reality Ls) Ls spin s nside reality ;;
     Ok (w, sc)).
Proof.
  intros HJJ Hs EF (P0 & P1 & P2) Hphi Hf. unfold analysis_looped. rewrite EJ. cbn [bind].
  rewrite scal_bandlimit_ok by apply lam0. cbn [bind].
  rewrite construct_flm_ok by (auto using lam0). cbn [bind].
  rewrite (construct_flmn_ok L N J_min lam mr J) by (auto using lam0; lia). cbn [bind].
  rewrite EF. cbn [bind].
  apply bind_ext. intros flm Ef. destruct (Hf flm Ef) as [F1 F2].
  rewrite (for_lwr (flmn_zero L N lam mr)
    (fun j => wloop L spin psi flm reality j (Lj j) (Nj j) (L0 j))); [|lia|].
  2:{ intros j l Hj Hl. rewrite (LN_j_ok L j N lam mr lam0). cbn [bind]. rewrite Hl. cbn [bind].
      pose proof (sz_facts0 L N J lam mr HL HN Hlam EJ j ltac:(lia)).
      unfold flmn_zero. rewrite an_scale by lia. reflexivity. }
  cbn [bind]. pose proof (Ls_range L J_min lam mr HL lam0).
  rewrite sc_loop by lia. cbn [bind].
  rewrite (construct_f_ok L N J_min lam s _ mr J) by (auto using lam0; lia). cbn [bind].
  rewrite (loop_lwr1 _ (fun j => b_winv O (wloop L spin psi flm reality j (Lj j) (Nj j) (L0 j))
                           (Lj j) (Nj j) (L0 j) s reality nside)); [reflexivity|lia|].
  intros j fw Hj. rewrite (LN_j_ok L j N lam mr lam0). cbn [bind].
  rewrite lrd_map by lia. reflexivity.
Qed.

Definition synl (spin : Z) (psi : arr3 C) (phi : arr1 R) (reality : bool) (Ts : list (arr3 C)) (S : arr2 C) : arr2 C :=
  mk2 L (2 * L - 1) (fun l q =>
    sy_fin L spin phi Ls S reality (fun l m =>
      csumZ J_min (J + 1) (fun j =>
        wpart_loop L spin psi j (Lj j) (Nj j) (L0 j) (Tnth nd0 J_min Ts j) l m)) l (q - (L - 1))).

(** base.py: synthesis_looped *)
Lemma synthesis_looped_ok O f_wav f_scal spin spin0 s nside reality psi phi :
  J_min <= J ->
  filters_directional L N J_min lam spin spin0 = Ok (psi, phi) ->
  psi_sh L J psi -> len1 phi = L ->
  (forall S, b_fwd O f_scal Ls spin s nside reality = Ok S -> flm_sh Ls S) ->
  (forall j fj T, J_min <= j <= J -> lrd f_wav (j - J_min) = Ok fj ->
     b_wfwd O fj (Lj j) (Nj j) (L0 j) s reality nside = Ok T -> flmn_sh (Nj j) (Lj j) T) ->
  synthesis_looped O f_wav f_scal L N J_min lam spin spin0 s nside reality mr
  = (_ <- wavelet_shape_check f_wav f_scal L N J_min lam s nside mr ;;
     S <- b_fwd O f_scal Ls spin s nside reality ;;
     Ts <- mapM (fun j => fj <- lrd f_wav (j - J_min) ;;
                          b_wfwd O fj (Lj j) (Nj j) (L0 j) s reality nside)
                (zrange J_min (J + 1)) ;;
     b_inv O (synl spin psi phi reality Ts S) L spin s nside reality).
Proof.
  intros HJJ EF (P0 & P1 & P2) Hphi HS HT. unfold synthesis_looped. apply bind_ext. intros _ _.
  rewrite EJ. cbn [bind]. rewrite scal_bandlimit_ok by apply lam0. cbn [bind].
  rewrite zeros2_ok by lia. cbn [bind]. apply bind_ext. intros S ES. rewrite EF. cbn [bind].
  rewrite (loop_sum L (2 * L - 1) nd0
    (fun j T l q => wpart_loop L spin psi j (Lj j) (Nj j) (L0 j) T l (q - (L - 1)))
    (fun j => fj <- lrd f_wav (j - J_min) ;;
              b_wfwd O fj (Lj j) (Nj j) (L0 j) s reality nside)); [|lia|].
  - rewrite bind_assoc. apply bind_ext. intros Ts _. cbn [bind].
    destruct (HS S ES) as [S1 S2]. pose proof (Ls_range L J_min lam mr HL lam0).
    pose proof (sf_loop L Ls spin reality phi S ltac:(lia) Hphi S1 S2 (fun l m =>
      csumZ J_min (J + 1) (fun j =>
        wpart_loop L spin psi j (Lj j) (Nj j) (L0 j) (Tnth nd0 J_min Ts j) l m))) as E.
    match goal with |- bind ?a ?k = _ =>
      exact (eq_trans (f_equal (fun r => bind r k) E) eq_refl) end.
  - intros j g Hj. rewrite LN_j_ok by apply lam0. cbn [bind]. rewrite bind_assoc.
    apply bind_ext. intros fj Efj. apply bind_ext. intros T ET.
    destruct (HT j fj T ltac:(lia) Efj ET) as (T0 & T1 & T2).
    pose proof (sz_facts0 L N J lam mr HL HN Hlam EJ j ltac:(lia)).
    apply sy_scale; lia.
Qed.
End Trl.
