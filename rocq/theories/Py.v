(** * Python / numpy substrate

    The pieces of Python and numpy semantics that s2wav relies on, as small
    total functions: exceptions as values, [range] loops, n-d arrays with a
    shape, index normalisation (negative indices wrap, out of range raises),
    slices (wrap, clip, stride), in-place slice updates with size-1
    broadcasting, and the einsum patterns that occur in s2wav. *)

From Coq Require Import ZArith Reals List Bool.
From Coquelicot Require Import Complex.
From Flocq Require Import Core.Raux.
Import ListNotations.
Open Scope Z_scope.

(** ** Exceptions as values *)

Inductive exn :=
| ValueError | AssertionError | IndexError | UnboundLocalError
| ZeroDivisionError | OverflowError | TypeError
| NonFinite. (* not a Python exception: numpy would continue here with inf or nan;
                the model stops, so "returns Ok" also means "no inf/nan arose" *)

Inductive res (A : Type) := Ok (a : A) | Err (e : exn).
Arguments Ok {A} _.
Arguments Err {A} _.

Definition bind {A B} (m : res A) (k : A -> res B) : res B :=
  match m with Ok a => k a | Err e => Err e end.

Notation "x <- m ;; k" := (bind m (fun x => k))
  (at level 61, m at next level, right associativity).
Notation "' p <- m ;; k" := (bind m (fun p => k))
  (at level 61, p pattern, m at next level, right associativity).

(** [if c then raise e else rest] *)
Definition guard (c : bool) (e : exn) : res unit := if c then Ok tt else Err e.

(** ** range and for-loops *)

(** number of elements of Python's range(lo, hi, st) for st > 0 *)
Definition range_len (lo hi st : Z) : Z :=
  if lo <? hi then (hi - lo + st - 1) / st else 0.

(** range(lo, hi, st) *)
Definition zrange_st (lo hi st : Z) : list Z :=
  map (fun k => lo + Z.of_nat k * st) (seq 0 (Z.to_nat (range_len lo hi st))).

(** range(lo, hi) *)
Definition zrange (lo hi : Z) : list Z :=
  map (fun k => lo + Z.of_nat k) (seq 0 (Z.to_nat (hi - lo))).

(** for i in is: s = body(i, s) *)
Fixpoint for_ {S} (is : list Z) (s : S) (body : Z -> S -> res S) : res S :=
  match is with
  | [] => Ok s
  | i :: is' => s' <- body i s ;; for_ is' s' body
  end.

(** ** Arrays

    An array is a shape and an element function.  [mk1], [mk2], [mk3]
    normalise the element function to zero outside the shape, so two arrays
    with the same shape and the same in-range elements are equal. *)

Class Zeroed (A : Type) := zero : A.
Global Instance Zeroed_R : Zeroed R := 0%R.
Global Instance Zeroed_C : Zeroed C := RtoC 0.

Record arr1 (A : Type) := Arr1 { len1 : Z; get1 : Z -> A }.
Record arr2 (A : Type) := Arr2 { rows : Z; cols : Z; get2 : Z -> Z -> A }.
Record arr3 (A : Type) := Arr3 { dim0 : Z; dim1 : Z; dim2 : Z; get3 : Z -> Z -> Z -> A }.
Arguments Arr1 {A}. Arguments len1 {A}. Arguments get1 {A}.
Arguments Arr2 {A}. Arguments rows {A}. Arguments cols {A}. Arguments get2 {A}.
Arguments Arr3 {A}. Arguments dim0 {A}. Arguments dim1 {A}. Arguments dim2 {A}. Arguments get3 {A}.

Definition inb (n i : Z) : bool := (0 <=? i) && (i <? n).

Definition mk1 {A} `{Zeroed A} (n : Z) (f : Z -> A) : arr1 A :=
  Arr1 n (fun i => if inb n i then f i else zero).
Definition mk2 {A} `{Zeroed A} (n m : Z) (f : Z -> Z -> A) : arr2 A :=
  Arr2 n m (fun i j => if inb n i && inb m j then f i j else zero).
Definition mk3 {A} `{Zeroed A} (n m p : Z) (f : Z -> Z -> Z -> A) : arr3 A :=
  Arr3 n m p (fun i j k => if inb n i && inb m j && inb p k then f i j k else zero).

Definition shape1 {A} (a : arr1 A) : list Z := [len1 a].
Definition shape2 {A} (a : arr2 A) : list Z := [rows a; cols a].
Definition shape3 {A} (a : arr3 A) : list Z := [dim0 a; dim1 a; dim2 a].

(** np.zeros: negative dimensions raise ValueError *)
Definition zeros1 {A} `{Zeroed A} (n : Z) : res (arr1 A) :=
  if 0 <=? n then Ok (mk1 n (fun _ => zero)) else Err ValueError.
Definition zeros2 {A} `{Zeroed A} (n m : Z) : res (arr2 A) :=
  if (0 <=? n) && (0 <=? m) then Ok (mk2 n m (fun _ _ => zero)) else Err ValueError.
Definition zeros3 {A} `{Zeroed A} (n m p : Z) : res (arr3 A) :=
  if (0 <=? n) && (0 <=? m) && (0 <=? p) then Ok (mk3 n m p (fun _ _ _ => zero))
  else Err ValueError.

(** Pixel-space arrays: arbitrary rank, complex entries. *)
Record nd := Nd { nshape : list Z; ndat : list Z -> C }.
Definition zeros_nd (sh : list Z) : res nd :=
  if forallb (fun d => 0 <=? d) sh then Ok (Nd sh (fun _ => RtoC 0)) else Err ValueError.
(** view of a 2-d array as a pixel array *)
Definition nd_of2 (a : arr2 C) : nd :=
  Nd [rows a; cols a]
     (fun ix => match ix with [i; j] => get2 a i j | _ => RtoC 0 end).

(** ** Element access: x[i] with Python wrap-around *)

Definition idx (n i : Z) : res Z :=
  if (- n <=? i) && (i <? n) then Ok (if i <? 0 then i + n else i) else Err IndexError.

Definition rd1 {A} (a : arr1 A) (i : Z) : res A :=
  i' <- idx (len1 a) i ;; Ok (get1 a i').
Definition rd2 {A} (a : arr2 A) (i j : Z) : res A :=
  i' <- idx (rows a) i ;; j' <- idx (cols a) j ;; Ok (get2 a i' j').
Definition rd3 {A} (a : arr3 A) (i j k : Z) : res A :=
  i' <- idx (dim0 a) i ;; j' <- idx (dim1 a) j ;; k' <- idx (dim2 a) k ;;
  Ok (get3 a i' j' k').

Definition wr1 {A} `{Zeroed A} (a : arr1 A) (i : Z) (v : A) : res (arr1 A) :=
  i' <- idx (len1 a) i ;;
  Ok (mk1 (len1 a) (fun p => if p =? i' then v else get1 a p)).
Definition wr2 {A} `{Zeroed A} (a : arr2 A) (i j : Z) (v : A) : res (arr2 A) :=
  i' <- idx (rows a) i ;; j' <- idx (cols a) j ;;
  Ok (mk2 (rows a) (cols a)
        (fun p q => if (p =? i') && (q =? j') then v else get2 a p q)).
Definition wr3 {A} `{Zeroed A} (a : arr3 A) (i j k : Z) (v : A) : res (arr3 A) :=
  i' <- idx (dim0 a) i ;; j' <- idx (dim1 a) j ;; k' <- idx (dim2 a) k ;;
  Ok (mk3 (dim0 a) (dim1 a) (dim2 a)
        (fun p q r => if (p =? i') && (q =? j') && (r =? k') then v else get3 a p q r)).

(** Python lists: x[i] and x[i] = v *)
Definition lrd {A} (l : list A) (i : Z) : res A :=
  i' <- idx (Z.of_nat (length l)) i ;;
  match nth_error l (Z.to_nat i') with Some x => Ok x | None => Err IndexError end.
Fixpoint lset {A} (l : list A) (n : nat) (v : A) : list A :=
  match l, n with
  | [], _ => []
  | _ :: l', O => v :: l'
  | x :: l', S n' => x :: lset l' n' v
  end.
Definition lwr {A} (l : list A) (i : Z) (v : A) : res (list A) :=
  i' <- idx (Z.of_nat (length l)) i ;; Ok (lset l (Z.to_nat i') v).

(** ** Slices *)

Record slc := Slc { s_lo : option Z; s_hi : option Z; s_st : Z }.
Definition full : slc := Slc None None 1.                    (* [:]      *)
Definition from (a : Z) : slc := Slc (Some a) None 1.         (* [a:]     *)
Definition upto (b : Z) : slc := Slc None (Some b) 1.         (* [:b]     *)
Definition between (a b : Z) : slc := Slc (Some a) (Some b) 1. (* [a:b] *)
Definition between2 (a b : Z) : slc := Slc (Some a) (Some b) 2. (* [a:b:2] *)
Definition every2 : slc := Slc None None 2.                  (* [::2]    *)

Definition sl_bound (n : Z) (o : option Z) (d : Z) : Z :=
  match o with
  | None => d
  | Some i => if i <? 0 then Z.max 0 (i + n) else Z.min i n
  end.
Definition sl_start (n : Z) (s : slc) : Z := sl_bound n (s_lo s) 0.
Definition sl_stop (n : Z) (s : slc) : Z := sl_bound n (s_hi s) n.
Definition sl_len (n : Z) (s : slc) : Z := range_len (sl_start n s) (sl_stop n s) (s_st s).
(** position in the base axis of the i-th selected element *)
Definition sl_at (n : Z) (s : slc) (i : Z) : Z := sl_start n s + i * s_st s.
(** is base position p selected, and as which element *)
Definition sl_mem (n : Z) (s : slc) (p : Z) : bool :=
  (sl_start n s <=? p) && (p <? sl_stop n s) && ((p - sl_start n s) mod s_st s =? 0).
Definition sl_pos (n : Z) (s : slc) (p : Z) : Z := (p - sl_start n s) / s_st s.

Definition slice1 {A} `{Zeroed A} (a : arr1 A) (s : slc) : arr1 A :=
  mk1 (sl_len (len1 a) s) (fun i => get1 a (sl_at (len1 a) s i)).
Definition slice2 {A} `{Zeroed A} (a : arr2 A) (s0 s1 : slc) : arr2 A :=
  mk2 (sl_len (rows a) s0) (sl_len (cols a) s1)
      (fun i j => get2 a (sl_at (rows a) s0 i) (sl_at (cols a) s1 j)).
Definition slice3 {A} `{Zeroed A} (a : arr3 A) (s0 s1 s2 : slc) : arr3 A :=
  mk3 (sl_len (dim0 a) s0) (sl_len (dim1 a) s1) (sl_len (dim2 a) s2)
      (fun i j k => get3 a (sl_at (dim0 a) s0 i) (sl_at (dim1 a) s1 j) (sl_at (dim2 a) s2 k)).
(** a[i, s1, s2] *)
Definition islice3 {A} `{Zeroed A} (a : arr3 A) (i : Z) (s1 s2 : slc) : res (arr2 A) :=
  i' <- idx (dim0 a) i ;;
  Ok (mk2 (sl_len (dim1 a) s1) (sl_len (dim2 a) s2)
        (fun j k => get3 a i' (sl_at (dim1 a) s1 j) (sl_at (dim2 a) s2 k))).

(** ** Broadcasting *)

(** common size of two axes carrying the same einsum label *)
Definition bdim (a b : Z) : res Z :=
  if a =? b then Ok a else if a =? 1 then Ok b else if b =? 1 then Ok a else Err ValueError.
(** index into an axis of size d when iterating over a (broadcast) index i *)
Definition bi (d i : Z) : Z := if d =? 1 then 0 else i.
(** may an axis of size x be assigned to an axis of size d *)
Definition bok (d x : Z) : bool := (x =? d) || (x =? 1).

(** a[s0, s1] op= X  (op = add or assignment) *)
Definition upd2 {A} `{Zeroed A} (op : A -> A -> A) (a : arr2 A) (s0 s1 : slc) (x : arr2 A)
  : res (arr2 A) :=
  if bok (sl_len (rows a) s0) (rows x) && bok (sl_len (cols a) s1) (cols x) then
    Ok (mk2 (rows a) (cols a) (fun p q =>
          if sl_mem (rows a) s0 p && sl_mem (cols a) s1 q
          then op (get2 a p q)
                  (get2 x (bi (rows x) (sl_pos (rows a) s0 p))
                          (bi (cols x) (sl_pos (cols a) s1 q)))
          else get2 a p q))
  else Err ValueError.
Definition upd3 {A} `{Zeroed A} (op : A -> A -> A) (a : arr3 A) (s0 s1 s2 : slc) (x : arr3 A)
  : res (arr3 A) :=
  if bok (sl_len (dim0 a) s0) (dim0 x) && bok (sl_len (dim1 a) s1) (dim1 x)
     && bok (sl_len (dim2 a) s2) (dim2 x) then
    Ok (mk3 (dim0 a) (dim1 a) (dim2 a) (fun p q r =>
          if sl_mem (dim0 a) s0 p && sl_mem (dim1 a) s1 q && sl_mem (dim2 a) s2 r
          then op (get3 a p q r)
                  (get3 x (bi (dim0 x) (sl_pos (dim0 a) s0 p))
                          (bi (dim1 x) (sl_pos (dim1 a) s1 q))
                          (bi (dim2 x) (sl_pos (dim2 a) s2 r)))
          else get3 a p q r))
  else Err ValueError.
(** assignment as an update operator *)
Definition assign {A} (_ new : A) : A := new.

(** ** Sums *)

Fixpoint rsum (n : nat) (f : nat -> R) : R :=
  match n with O => 0%R | S n' => (rsum n' f + f n')%R end.
Fixpoint csum (n : nat) (f : nat -> C) : C :=
  match n with O => RtoC 0 | S n' => Cplus (csum n' f) (f n') end.
(** sum over 0 <= i < n of a function of a (Z) index *)
Definition zrsum (n : Z) (f : Z -> R) : R := rsum (Z.to_nat n) (fun k => f (Z.of_nat k)).
Definition zcsum (n : Z) (f : Z -> C) : C := csum (Z.to_nat n) (fun k => f (Z.of_nat k)).

(** ** einsum patterns used by s2wav *)

(** einsum("ij,jk->ijk", a, b) with real a and complex b *)
Definition einsum_ij_jk_ijk (a : arr2 R) (b : arr2 C) : res (arr3 C) :=
  d <- bdim (cols a) (rows b) ;;
  Ok (mk3 (rows a) d (cols b) (fun i j k =>
        Cmult (RtoC (get2 a i (bi (cols a) j))) (get2 b (bi (rows b) j) k))).
(** einsum("ijk,j->ijk", a, w) with complex a and real w *)
Definition einsum_ijk_j_ijk (a : arr3 C) (w : arr1 R) : res (arr3 C) :=
  d <- bdim (dim1 a) (len1 w) ;;
  Ok (mk3 (dim0 a) d (dim2 a) (fun i j k =>
        Cmult (get3 a i (bi (dim1 a) j) k) (RtoC (get1 w (bi (len1 w) j))))).
(** einsum("lm,ln->nlm", a, b) *)
Definition einsum_lm_ln_nlm (a b : arr2 C) : res (arr3 C) :=
  d <- bdim (rows a) (rows b) ;;
  Ok (mk3 (cols b) d (cols a) (fun n l m =>
        Cmult (get2 a (bi (rows a) l) m) (get2 b (bi (rows b) l) n))).
(** einsum("ln,nlm->lm", a, b) *)
Definition einsum_ln_nlm_lm (a : arr2 C) (b : arr3 C) : res (arr2 C) :=
  d <- bdim (rows a) (dim1 b) ;;
  nn <- bdim (cols a) (dim0 b) ;;
  Ok (mk2 d (dim2 b) (fun l m =>
        zcsum nn (fun n => Cmult (get2 a (bi (rows a) l) (bi (cols a) n))
                                 (get3 b (bi (dim0 b) n) (bi (dim1 b) l) m)))).
(** einsum("lm,l->lm", a, w) with complex a and real w *)
Definition einsum_lm_l_lm (a : arr2 C) (w : arr1 R) : res (arr2 C) :=
  d <- bdim (rows a) (len1 w) ;;
  Ok (mk2 d (cols a) (fun l m =>
        Cmult (get2 a (bi (rows a) l) m) (RtoC (get1 w (bi (len1 w) l))))).

(** ** Elementwise operations *)

Definition map1 {A B} `{Zeroed B} (f : A -> B) (a : arr1 A) : arr1 B :=
  mk1 (len1 a) (fun i => f (get1 a i)).
Definition map2 {A B} `{Zeroed B} (f : A -> B) (a : arr2 A) : arr2 B :=
  mk2 (rows a) (cols a) (fun i j => f (get2 a i j)).
Definition map3 {A B} `{Zeroed B} (f : A -> B) (a : arr3 A) : arr3 B :=
  mk3 (dim0 a) (dim1 a) (dim2 a) (fun i j k => f (get3 a i j k)).
(** elementwise product of two vectors (numpy broadcasting) *)
Definition mul1 (a b : arr1 R) : res (arr1 R) :=
  d <- bdim (len1 a) (len1 b) ;;
  Ok (mk1 d (fun i => (get1 a (bi (len1 a) i) * get1 b (bi (len1 b) i))%R)).
(** matrix times vector, broadcast along the last axis *)
Definition mul21 (a : arr2 R) (b : arr1 R) : res (arr2 R) :=
  d <- bdim (cols a) (len1 b) ;;
  Ok (mk2 (rows a) d (fun i j => (get2 a i (bi (cols a) j) * get1 b (bi (len1 b) j))%R)).

(** a[s] = v, a[s0, s1, s2] = v for a scalar v *)
Definition fill1 {A} `{Zeroed A} (a : arr1 A) (s : slc) (v : A) : arr1 A :=
  mk1 (len1 a) (fun p => if sl_mem (len1 a) s p then v else get1 a p).
Definition fill3 {A} `{Zeroed A} (a : arr3 A) (s0 s1 s2 : slc) (v : A) : arr3 A :=
  mk3 (dim0 a) (dim1 a) (dim2 a) (fun p q r =>
    if sl_mem (dim0 a) s0 p && sl_mem (dim1 a) s1 q && sl_mem (dim2 a) s2 r
    then v else get3 a p q r).

(** np.sqrt of a scalar / vector / matrix: a negative argument would be nan *)
Definition np_sqrt (x : R) : res R := if Rlt_bool x 0 then Err NonFinite else Ok (sqrt x).
Definition np_sqrt1 (a : arr1 R) : res (arr1 R) :=
  if forallb (fun i => negb (Rlt_bool (get1 a i) 0)) (zrange 0 (len1 a))
  then Ok (map1 sqrt a) else Err NonFinite.
Definition np_sqrt2 (a : arr2 R) : res (arr2 R) :=
  if forallb (fun i => forallb (fun j => negb (Rlt_bool (get2 a i j) 0)) (zrange 0 (cols a)))
             (zrange 0 (rows a))
  then Ok (map2 sqrt a) else Err NonFinite.
(** a[i] for a matrix: the i-th row *)
Definition row2 {A} `{Zeroed A} (a : arr2 A) (i : Z) : res (arr1 A) :=
  i' <- idx (rows a) i ;; Ok (mk1 (cols a) (fun j => get2 a i' j)).
(** a[:-1] along axis 0, np.roll(a, -1, axis=0), elementwise difference *)
Definition droplast {A} `{Zeroed A} (a : arr2 A) : arr2 A :=
  slice2 a (Slc None (Some (-1)) 1) full.
Definition roll_up {A} `{Zeroed A} (a : arr2 A) : arr2 A :=
  mk2 (rows a) (cols a) (fun i j => get2 a ((i + 1) mod rows a) j).
Definition sub2 (a b : arr2 R) : arr2 R := (* only used on equal shapes *)
  mk2 (rows a) (cols a) (fun i j => (get2 a i j - get2 b i j)%R).
(** np.arange(lo, hi) as a vector of ints *)
Definition arange (lo hi : Z) : list Z := zrange lo hi.
(** x.reshape(1, c): the total size must match; numpy raises ValueError, JAX TypeError *)
Definition reshape_1 (e : exn) (x : list Z) (c : Z) : res (list Z) :=
  if Z.of_nat (length x) =? c then Ok x else Err e.

(** real ceiling / floor (Flocq's), comparison tests on reals *)
Definition rceil (x : R) : Z := Zceil x.
Definition rfloor (x : R) : Z := Zfloor x.
Definition rltb (x y : R) : bool := Rlt_bool x y.
Definition reqb (x y : R) : bool := Req_bool x y.

(** the integer power (-1)^z, for either sign of z *)
Definition msgn (z : Z) : R := if Z.even z then 1%R else (-1)%R.
