(** * Lemmas about the Python / numpy substrate *)

From Coq Require Import ZArith Reals List Bool Lia Lra FunctionalExtensionality.
From Coquelicot Require Import Complex.
From Flocq Require Import Core.Raux.
From Verif Require Import Py.
Import ListNotations.
Open Scope Z_scope.

(** destruct the integer comparisons of the goal *)
Ltac zb1 :=
  match goal with
  | |- context [Z.ltb ?a ?b] => destruct (Z.ltb_spec a b)
  | |- context [Z.leb ?a ?b] => destruct (Z.leb_spec a b)
  | |- context [Z.eqb ?a ?b] => destruct (Z.eqb_spec a b)
  end.
Ltac zb := repeat (zb1; try lia); simpl; try reflexivity; try lia.

(** ** bind, Ok, Err *)

Lemma bind_Ok {A B} (a : A) (k : A -> res B) : bind (Ok a) k = k a.
Proof. reflexivity. Qed.
Lemma bind_Err {A B} e (k : A -> res B) : bind (Err e) k = Err e.
Proof. reflexivity. Qed.
Lemma Ok_inj {A} (a b : A) : Ok a = Ok b -> a = b.
Proof. now intros [= ->]. Qed.
Lemma bind_inv {A B} (m : res A) (k : A -> res B) b :
  bind m k = Ok b -> exists a, m = Ok a /\ k a = Ok b.
Proof. destruct m; simpl; [eauto | discriminate]. Qed.
Lemma bind_assoc {A B D} (m : res A) (k : A -> res B) (h : B -> res D) :
  bind (bind m k) h = bind m (fun a => bind (k a) h).
Proof. now destruct m. Qed.
Lemma bind_ext {A B} (m : res A) (k k' : A -> res B) :
  (forall a, m = Ok a -> k a = k' a) -> bind m k = bind m k'.
Proof. destruct m; simpl; auto. Qed.

(** ** zrange *)

Lemma zrange_nil lo hi : hi <= lo -> zrange lo hi = [].
Proof. intros; unfold zrange. replace (Z.to_nat (hi - lo)) with 0%nat by lia. reflexivity. Qed.

Lemma seq_shift_map n k (f : nat -> Z) :
  map f (seq (S k) n) = map (fun i => f (S i)) (seq k n).
Proof. rewrite <- seq_shift, map_map. reflexivity. Qed.

Lemma zrange_cons lo hi : lo < hi -> zrange lo hi = lo :: zrange (lo + 1) hi.
Proof.
  intros; unfold zrange.
  replace (Z.to_nat (hi - lo)) with (S (Z.to_nat (hi - (lo + 1)))) by lia.
  simpl. f_equal; [lia |].
  rewrite seq_shift_map. apply map_ext; intros; lia.
Qed.

Lemma zrange_snoc lo hi : lo <= hi -> zrange lo (hi + 1) = zrange lo hi ++ [hi].
Proof.
  intros; unfold zrange.
  replace (Z.to_nat (hi + 1 - lo)) with (S (Z.to_nat (hi - lo))) by lia.
  rewrite seq_S, map_app. simpl. repeat f_equal. lia.
Qed.

Lemma zrange_length lo hi : length (zrange lo hi) = Z.to_nat (hi - lo).
Proof. unfold zrange. now rewrite map_length, seq_length. Qed.

Lemma In_zrange i lo hi : In i (zrange lo hi) <-> lo <= i < hi.
Proof.
  unfold zrange. rewrite in_map_iff. split.
  - intros (k & <- & Hk). apply in_seq in Hk. lia.
  - intros. exists (Z.to_nat (i - lo)). split; [lia |]. apply in_seq. lia.
Qed.

Lemma nth_error_zrange lo hi k :
  0 <= k < hi - lo -> nth_error (zrange lo hi) (Z.to_nat k) = Some (lo + k).
Proof.
  intros. unfold zrange. rewrite nth_error_map.
  rewrite (nth_error_nth' _ 0%nat) by (rewrite seq_length; lia).
  rewrite seq_nth by lia. simpl. f_equal. lia.
Qed.

Lemma zrange_split lo mid hi : lo <= mid <= hi ->
  zrange lo hi = zrange lo mid ++ zrange mid hi.
Proof.
  intros [H1 H2]. unfold zrange.
  replace (Z.to_nat (hi - lo)) with (Z.to_nat (mid - lo) + Z.to_nat (hi - mid))%nat by lia.
  rewrite seq_app, map_app. f_equal. simpl.
  generalize (Z.to_nat (hi - mid)) as n; intros n.
  assert (E : forall a, map (fun k => lo + Z.of_nat k) (seq (Z.to_nat (mid - lo) + a) n)
             = map (fun k => mid + Z.of_nat k) (seq a n)).
  { induction n; intros a; simpl; [reflexivity|]. f_equal; [lia|].
    rewrite <- (IHn (S a)). f_equal. f_equal. lia. }
  replace (Z.to_nat (mid - lo)) with (Z.to_nat (mid - lo) + 0)%nat at 1 by lia. apply E.
Qed.

(** ** for loops *)

Lemma for_app {S} is js (s : S) body :
  for_ (is ++ js) s body = bind (for_ is s body) (fun s' => for_ js s' body).
Proof.
  revert s; induction is; simpl; intros; [reflexivity|].
  rewrite bind_assoc. apply bind_ext. auto.
Qed.

(** the state before iteration i is g i *)
Lemma for_closed {S} (g : Z -> S) lo hi s body :
  lo <= hi -> s = g lo ->
  (forall i, lo <= i < hi -> body i (g i) = Ok (g (i + 1))) ->
  for_ (zrange lo hi) s body = Ok (g hi).
Proof.
  intros Hle -> Hb.
  assert (Hn : hi = lo + Z.of_nat (Z.to_nat (hi - lo))) by lia.
  revert Hb. rewrite Hn. clear Hn Hle. generalize (Z.to_nat (hi - lo)) as n. clear hi.
  intros n; revert lo; induction n; intros lo Hb.
  - rewrite zrange_nil by lia. simpl. do 2 f_equal. lia.
  - rewrite zrange_cons by lia. cbn [for_]. rewrite Hb by lia. cbn [bind].
    replace (lo + Z.of_nat (Datatypes.S n)) with (lo + 1 + Z.of_nat n) by lia.
    apply IHn. intros; apply Hb; lia.
Qed.

(** step-2 ranges *)
Lemma zrange_st_eq lo hi st : 0 < st -> lo < hi ->
  zrange_st lo hi st = map (fun k => lo + k * st) (zrange 0 ((hi - lo + st - 1) / st)).
Proof.
  intros. unfold zrange_st, zrange, range_len.
  destruct (Z.ltb_spec lo hi); [|lia]. rewrite map_map, Z.sub_0_r.
  apply map_ext. intros; lia.
Qed.

Lemma for_map {S} (h : Z -> Z) is (s : S) body :
  for_ (map h is) s body = for_ is s (fun i s => body (h i) s).
Proof.
  revert s; induction is; simpl; intros; [reflexivity|].
  apply bind_ext; auto.
Qed.

Lemma for_ext {S} is (s : S) b1 b2 :
  (forall i s', In i is -> b1 i s' = b2 i s') -> for_ is s b1 = for_ is s b2.
Proof.
  revert s; induction is; simpl; intros; [reflexivity|].
  rewrite H by auto. apply bind_ext; intros; apply IHis; auto.
Qed.

(** invariant rule *)
Lemma for_inv {S} (P : Z -> S -> Prop) lo hi s body s' :
  lo <= hi -> P lo s ->
  (forall i a b, lo <= i < hi -> P i a -> body i a = Ok b -> P (i + 1) b) ->
  for_ (zrange lo hi) s body = Ok s' -> P hi s'.
Proof.
  intros Hle H0 Hs.
  assert (Hn : hi = lo + Z.of_nat (Z.to_nat (hi - lo))) by lia.
  revert Hs. rewrite Hn. clear Hn Hle. generalize (Z.to_nat (hi - lo)) as n. clear hi.
  intros n; revert lo s H0; induction n; intros lo s H0 Hs.
  - rewrite zrange_nil by lia. simpl. intros [= <-].
    replace (lo + 0) with lo by lia. assumption.
  - rewrite zrange_cons by lia. cbn [for_]. intros H. apply bind_inv in H as (a & Ha & H).
    replace (lo + Z.of_nat (Datatypes.S n)) with (lo + 1 + Z.of_nat n) in * by lia.
    eapply IHn in H; eauto. { eapply Hs; eauto. lia. }
    intros; eapply Hs; eauto. lia.
Qed.

Lemma for_err {S} (g : Z -> S) lo k hi s body e :
  lo <= k < hi -> s = g lo ->
  (forall i, lo <= i < k -> body i (g i) = Ok (g (i + 1))) ->
  body k (g k) = Err e ->
  for_ (zrange lo hi) s body = Err e.
Proof.
  intros Hk Hs Hb He. rewrite (zrange_split lo k hi) by lia.
  rewrite for_app, (for_closed g) by (auto; lia). simpl.
  rewrite zrange_cons by lia. simpl. rewrite He. reflexivity.
Qed.

(** every step succeeds or raises E, and step k raises E *)
Lemma for_err_only {S} (P : S -> Prop) E lo k hi s body : lo <= k < hi -> P s ->
  (forall i a, lo <= i < hi -> P a -> (exists b, body i a = Ok b /\ P b) \/ body i a = Err E) ->
  (forall a, P a -> body k a = Err E) ->
  for_ (zrange lo hi) s body = Err E.
Proof.
  intros Hk Hs Hb He. rewrite (zrange_split lo k hi) by lia. rewrite for_app.
  assert (H : (exists b, for_ (zrange lo k) s body = Ok b /\ P b) \/ for_ (zrange lo k) s body = Err E).
  { assert (Hin : forall i, In i (zrange lo k) -> lo <= i < hi) by (intros i Hi; apply In_zrange in Hi; lia).
    revert s Hs Hin. induction (zrange lo k) as [|i l IH]; intros s Hs Hin; [left; cbn; eauto|].
    cbn [for_]. destruct (Hb i s (Hin i (or_introl eq_refl)) Hs) as [(b & -> & Pb)| ->]; [|right; reflexivity].
    cbn [bind]. apply IH; auto. intros i' Hi'. apply Hin. right; auto. }
  destruct H as [(b & -> & Pb)| ->]; [|reflexivity]. cbn [bind]. rewrite zrange_cons by lia. cbn [for_].
  rewrite He by assumption. reflexivity.
Qed.

(** appending one element per iteration *)
Lemma for_append {A} (f : Z -> A) lo hi body :
  lo <= hi ->
  (forall i acc, lo <= i < hi -> body i acc = Ok (acc ++ [f i])) ->
  for_ (zrange lo hi) [] body = Ok (map f (zrange lo hi)).
Proof.
  intros Hle H. apply (for_closed (fun i => map f (zrange lo i))); auto.
  - now rewrite zrange_nil by lia.
  - intros i Hi. rewrite H by lia. now rewrite zrange_snoc, map_app by lia.
Qed.

(** ** Lists indexed by scale *)

Lemma idx_ok n i : 0 <= i < n -> idx n i = Ok i.
Proof. intros. unfold idx. zb. Qed.
Lemma idx_neg n i : - n <= i < 0 -> idx n i = Ok (i + n).
Proof. intros. unfold idx. zb. Qed.
Lemma idx_err n i : i < - n \/ n <= i -> idx n i = Err IndexError.
Proof. intros. unfold idx. zb. Qed.

Lemma lrd_map {A} (f : Z -> A) lo hi i : lo <= i < hi ->
  lrd (map f (zrange lo hi)) (i - lo) = Ok (f i).
Proof.
  intros. unfold lrd. rewrite map_length, zrange_length.
  rewrite idx_ok by lia. simpl. rewrite nth_error_map, nth_error_zrange by lia.
  simpl. do 2 f_equal. lia.
Qed.

Lemma lrd_map_err {A} (f : Z -> A) lo hi i : lo <= hi -> hi <= i ->
  lrd (map f (zrange lo hi)) (i - lo) = Err IndexError.
Proof.
  intros. unfold lrd. rewrite map_length, zrange_length.
  rewrite idx_err by lia. reflexivity.
Qed.

Lemma lset_length {A} (l : list A) k v : length (lset l k v) = length l.
Proof. revert k; induction l; destruct k; simpl; auto. Qed.

Lemma nth_error_lset {A} (l : list A) k v i : (k < length l)%nat ->
  nth_error (lset l k v) i = if Nat.eqb i k then Some v else nth_error l i.
Proof.
  revert k i; induction l; simpl; intros k i H; [lia|].
  destruct k, i; simpl; auto. apply IHl. lia.
Qed.

Lemma list_ext {A} (l l' : list A) :
  length l = length l' -> (forall i, (i < length l)%nat -> nth_error l i = nth_error l' i) -> l = l'.
Proof.
  revert l'; induction l; destruct l'; simpl; intros Hl H; try discriminate; auto.
  f_equal.
  - specialize (H 0%nat). simpl in H. assert (Some a = Some a0) by (apply H; lia). congruence.
  - apply IHl; [lia|]. intros i Hi. apply (H (S i)). lia.
Qed.

Lemma lwr_map {A} (f : Z -> A) lo hi i v : lo <= i < hi ->
  lwr (map f (zrange lo hi)) (i - lo) v
  = Ok (map (fun j => if j =? i then v else f j) (zrange lo hi)).
Proof.
  intros. unfold lwr. rewrite map_length, zrange_length.
  rewrite idx_ok by lia. simpl. f_equal. apply list_ext.
  - rewrite lset_length, !map_length. reflexivity.
  - rewrite lset_length, map_length, zrange_length. intros k Hk.
    rewrite nth_error_lset by (rewrite map_length, zrange_length; lia).
    rewrite !nth_error_map.
    rewrite <- (Nat2Z.id k) at 2 3. rewrite nth_error_zrange by lia. simpl.
    destruct (Nat.eqb_spec k (Z.to_nat (i - lo))); zb; auto.
Qed.

Lemma map_zrange_ext {A} (f g : Z -> A) lo hi :
  (forall i, lo <= i < hi -> f i = g i) -> map f (zrange lo hi) = map g (zrange lo hi).
Proof. intros. apply map_ext_in. intros a Ha. apply H. now apply In_zrange. Qed.

(** a list-valued state updated at position j - lo by iteration j *)
Lemma for_lwr {A} (f g : Z -> A) lo hi body :
  lo <= hi ->
  (forall j (l : list A), lo <= j < hi -> lrd l (j - lo) = Ok (f j) ->
      body j l = lwr l (j - lo) (g j)) ->
  for_ (zrange lo hi) (map f (zrange lo hi)) body = Ok (map g (zrange lo hi)).
Proof.
  intros Hle H.
  rewrite (for_closed (fun i => map (fun j => if j <? i then g j else f j) (zrange lo hi))); auto.
  - f_equal. apply map_zrange_ext. intros; zb; auto.
  - apply map_zrange_ext. intros; zb; auto.
  - intros i Hi. rewrite H; auto.
    + rewrite lwr_map by lia. f_equal. apply map_zrange_ext. intros.
      zb; subst; auto.
    + rewrite lrd_map by lia. zb; auto.
Qed.

(** ** Arrays *)

Definition wf1 {A} `{Zeroed A} (a : arr1 A) : Prop :=
  forall i, inb (len1 a) i = false -> get1 a i = zero.
Definition wf2 {A} `{Zeroed A} (a : arr2 A) : Prop :=
  forall i j, inb (rows a) i && inb (cols a) j = false -> get2 a i j = zero.
Definition wf3 {A} `{Zeroed A} (a : arr3 A) : Prop :=
  forall i j k, inb (dim0 a) i && inb (dim1 a) j && inb (dim2 a) k = false -> get3 a i j k = zero.

Lemma inb_true n i : inb n i = true <-> 0 <= i < n.
Proof. unfold inb. rewrite andb_true_iff, Z.leb_le, Z.ltb_lt. lia. Qed.
Lemma inb_in n i : 0 <= i < n -> inb n i = true.
Proof. apply inb_true. Qed.
Lemma inb_out n i : ~ (0 <= i < n) -> inb n i = false.
Proof. intros H. destruct (inb n i) eqn:E; auto. apply inb_true in E. lia. Qed.

Section Arr.
Context {A : Type} `{Zeroed A}.

Lemma wf_mk1 n f : wf1 (mk1 n f). Proof. intros i Hi; simpl in *. now rewrite Hi. Qed.
Lemma wf_mk2 n m f : wf2 (mk2 n m f). Proof. intros i j Hi; simpl in *. now rewrite Hi. Qed.
Lemma wf_mk3 n m p f : wf3 (mk3 n m p f). Proof. intros i j k Hi; simpl in *. now rewrite Hi. Qed.

Lemma get1_mk n (f : Z -> A) i : 0 <= i < n -> get1 (mk1 n f) i = f i.
Proof. intros. simpl. now rewrite inb_in. Qed.
Lemma get2_mk n m (f : Z -> Z -> A) i j : 0 <= i < n -> 0 <= j < m -> get2 (mk2 n m f) i j = f i j.
Proof. intros. simpl. now rewrite !inb_in. Qed.
Lemma get3_mk n m p (f : Z -> Z -> Z -> A) i j k :
  0 <= i < n -> 0 <= j < m -> 0 <= k < p -> get3 (mk3 n m p f) i j k = f i j k.
Proof. intros. simpl. now rewrite !inb_in. Qed.

Lemma mk1_ext n (f g : Z -> A) : (forall i, 0 <= i < n -> f i = g i) -> mk1 n f = mk1 n g.
Proof.
  intros E. unfold mk1. f_equal. extensionality i.
  destruct (inb n i) eqn:Ei; auto. apply E. now apply inb_true.
Qed.
Lemma mk2_ext n m (f g : Z -> Z -> A) :
  (forall i j, 0 <= i < n -> 0 <= j < m -> f i j = g i j) -> mk2 n m f = mk2 n m g.
Proof.
  intros E. unfold mk2. f_equal. extensionality i. extensionality j.
  destruct (inb n i) eqn:Ei, (inb m j) eqn:Ej; simpl; auto.
  apply E; now apply inb_true.
Qed.
Lemma mk3_ext n m p (f g : Z -> Z -> Z -> A) :
  (forall i j k, 0 <= i < n -> 0 <= j < m -> 0 <= k < p -> f i j k = g i j k) ->
  mk3 n m p f = mk3 n m p g.
Proof.
  intros E. unfold mk3. f_equal. extensionality i. extensionality j. extensionality k.
  destruct (inb n i) eqn:Ei, (inb m j) eqn:Ej, (inb p k) eqn:Ek; simpl; auto.
  apply E; now apply inb_true.
Qed.

Lemma mk1_eta (a : arr1 A) : wf1 a -> a = mk1 (len1 a) (get1 a).
Proof.
  intros W. destruct a as [n f]; unfold mk1; simpl in *. f_equal.
  extensionality i. destruct (inb n i) eqn:E; [reflexivity | now apply W].
Qed.
Lemma mk2_eta (a : arr2 A) : wf2 a -> a = mk2 (rows a) (cols a) (get2 a).
Proof.
  intros W. destruct a as [n m f]; unfold mk2; simpl in *. f_equal.
  extensionality i. extensionality j.
  destruct (inb n i && inb m j) eqn:E; [reflexivity | now apply W].
Qed.
Lemma mk3_eta (a : arr3 A) : wf3 a -> a = mk3 (dim0 a) (dim1 a) (dim2 a) (get3 a).
Proof.
  intros W. destruct a as [n m p f]; unfold mk3; simpl in *. f_equal.
  extensionality i. extensionality j. extensionality k.
  destruct (inb n i && inb m j && inb p k) eqn:E; [reflexivity | now apply W].
Qed.

Lemma arr1_ext (a b : arr1 A) : wf1 a -> wf1 b -> len1 a = len1 b ->
  (forall i, 0 <= i < len1 a -> get1 a i = get1 b i) -> a = b.
Proof.
  intros Wa Wb Hl E. rewrite (mk1_eta a Wa), (mk1_eta b Wb), <- Hl. now apply mk1_ext.
Qed.
Lemma arr2_ext (a b : arr2 A) : wf2 a -> wf2 b -> rows a = rows b -> cols a = cols b ->
  (forall i j, 0 <= i < rows a -> 0 <= j < cols a -> get2 a i j = get2 b i j) -> a = b.
Proof.
  intros Wa Wb H1 H2 E. rewrite (mk2_eta a Wa), (mk2_eta b Wb), <- H1, <- H2. now apply mk2_ext.
Qed.
Lemma arr3_ext (a b : arr3 A) : wf3 a -> wf3 b ->
  dim0 a = dim0 b -> dim1 a = dim1 b -> dim2 a = dim2 b ->
  (forall i j k, 0 <= i < dim0 a -> 0 <= j < dim1 a -> 0 <= k < dim2 a ->
     get3 a i j k = get3 b i j k) -> a = b.
Proof.
  intros Wa Wb H1 H2 H3 E. rewrite (mk3_eta a Wa), (mk3_eta b Wb), <- H1, <- H2, <- H3.
  now apply mk3_ext.
Qed.

Lemma rd1_ok (a : arr1 A) i : 0 <= i < len1 a -> rd1 a i = Ok (get1 a i).
Proof. intros. unfold rd1. now rewrite idx_ok. Qed.
Lemma rd2_ok (a : arr2 A) i j : 0 <= i < rows a -> 0 <= j < cols a ->
  rd2 a i j = Ok (get2 a i j).
Proof. intros. unfold rd2. now rewrite !idx_ok. Qed.
Lemma rd3_ok (a : arr3 A) i j k : 0 <= i < dim0 a -> 0 <= j < dim1 a -> 0 <= k < dim2 a ->
  rd3 a i j k = Ok (get3 a i j k).
Proof. intros. unfold rd3. now rewrite !idx_ok. Qed.

Lemma wr1_ok (a : arr1 A) i v : 0 <= i < len1 a ->
  wr1 a i v = Ok (mk1 (len1 a) (fun p => if p =? i then v else get1 a p)).
Proof. intros. unfold wr1. now rewrite idx_ok. Qed.
Lemma wr2_ok (a : arr2 A) i j v : 0 <= i < rows a -> 0 <= j < cols a ->
  wr2 a i j v = Ok (mk2 (rows a) (cols a)
                      (fun p q => if (p =? i) && (q =? j) then v else get2 a p q)).
Proof. intros. unfold wr2. now rewrite !idx_ok. Qed.
Lemma wr3_ok (a : arr3 A) i j k v : 0 <= i < dim0 a -> 0 <= j < dim1 a -> 0 <= k < dim2 a ->
  wr3 a i j k v = Ok (mk3 (dim0 a) (dim1 a) (dim2 a)
       (fun p q r => if (p =? i) && (q =? j) && (r =? k) then v else get3 a p q r)).
Proof. intros. unfold wr3. now rewrite !idx_ok. Qed.

Lemma rd2_mk n m f i j : 0 <= i < n -> 0 <= j < m -> rd2 (mk2 n m f) i j = Ok (f i j).
Proof. intros. rewrite rd2_ok by assumption. now rewrite get2_mk. Qed.
Lemma rd1_mk n f i : 0 <= i < n -> rd1 (mk1 n f) i = Ok (f i).
Proof. intros. rewrite rd1_ok by assumption. now rewrite get1_mk. Qed.
Lemma rd3_mk n m p f i j k : 0 <= i < n -> 0 <= j < m -> 0 <= k < p ->
  rd3 (mk3 n m p f) i j k = Ok (f i j k).
Proof. intros. rewrite rd3_ok by assumption. now rewrite get3_mk. Qed.

Lemma wr1_mk n f i v : 0 <= i < n ->
  wr1 (mk1 n f) i v = Ok (mk1 n (fun p => if p =? i then v else f p)).
Proof.
  intros. rewrite wr1_ok by assumption. simpl len1. f_equal. apply mk1_ext. intros.
  now rewrite get1_mk by assumption.
Qed.
Lemma wr2_mk n m f i j v : 0 <= i < n -> 0 <= j < m ->
  wr2 (mk2 n m f) i j v = Ok (mk2 n m (fun p q => if (p =? i) && (q =? j) then v else f p q)).
Proof.
  intros. rewrite wr2_ok by assumption. simpl rows; simpl cols. f_equal. apply mk2_ext. intros.
  now rewrite get2_mk by assumption.
Qed.
Lemma wr3_mk n m q f i j k v : 0 <= i < n -> 0 <= j < m -> 0 <= k < q ->
  wr3 (mk3 n m q f) i j k v
  = Ok (mk3 n m q (fun x y z => if (x =? i) && (y =? j) && (z =? k) then v else f x y z)).
Proof.
  intros. rewrite wr3_ok by assumption. simpl dim0; simpl dim1; simpl dim2.
  f_equal. apply mk3_ext. intros. now rewrite get3_mk by assumption.
Qed.

Lemma zeros1_ok n : 0 <= n -> zeros1 n = Ok (mk1 n (fun _ => zero)).
Proof. intros. unfold zeros1. zb. Qed.
Lemma zeros2_ok n m : 0 <= n -> 0 <= m -> zeros2 n m = Ok (mk2 n m (fun _ _ => zero)).
Proof. intros. unfold zeros2. zb. Qed.
Lemma zeros3_ok n m p : 0 <= n -> 0 <= m -> 0 <= p ->
  zeros3 n m p = Ok (mk3 n m p (fun _ _ _ => zero)).
Proof. intros. unfold zeros3. zb. Qed.

(** loops that fill part of an array, one element per iteration *)
Lemma for_fill1 n f lo hi v body :
  lo <= hi -> 0 <= lo -> hi <= n ->
  (forall l g, lo <= l < hi -> body l (mk1 n g) = wr1 (mk1 n g) l (v l)) ->
  for_ (zrange lo hi) (mk1 n f) body
  = Ok (mk1 n (fun p => if (lo <=? p) && (p <? hi) then v p else f p)).
Proof.
  intros Hle H0 Hn Hb.
  rewrite (for_closed (fun i => mk1 n (fun p => if (lo <=? p) && (p <? i) then v p else f p)));
    auto.
  - apply mk1_ext. intros; zb; auto.
  - intros i Hi. rewrite Hb, wr1_mk by lia. f_equal. apply mk1_ext. intros.
    zb; subst; auto.
Qed.

Lemma for_fill2_row n m f i lo hi off v body :
  lo <= hi -> 0 <= i < n -> 0 <= off + lo -> off + hi <= m ->
  (forall l g, lo <= l < hi -> body l (mk2 n m g) = wr2 (mk2 n m g) i (off + l) (v l)) ->
  for_ (zrange lo hi) (mk2 n m f) body
  = Ok (mk2 n m (fun p q => if (p =? i) && ((off + lo <=? q) && (q <? off + hi))
                            then v (q - off) else f p q)).
Proof.
  intros Hle Hi H0 Hn Hb.
  rewrite (for_closed (fun k => mk2 n m (fun p q =>
      if (p =? i) && ((off + lo <=? q) && (q <? off + k)) then v (q - off) else f p q))); auto.
  - apply mk2_ext. intros; zb; auto.
  - intros k Hk. rewrite Hb, wr2_mk by lia. f_equal. apply mk2_ext. intros.
    zb; auto. f_equal. lia.
Qed.

(** a loop over rows, each iteration rewriting (part of) one row *)
Lemma for_fill2 n m f lo hi (w : Z -> Z -> bool) (v : Z -> Z -> A) body :
  lo <= hi -> 0 <= lo -> hi <= n ->
  (forall i g, lo <= i < hi -> body i (mk2 n m g)
     = Ok (mk2 n m (fun p q => if (p =? i) && w i q then v i q else g p q))) ->
  for_ (zrange lo hi) (mk2 n m f) body
  = Ok (mk2 n m (fun p q => if ((lo <=? p) && (p <? hi)) && w p q then v p q else f p q)).
Proof.
  intros Hle H0 Hn Hb.
  rewrite (for_closed (fun k => mk2 n m (fun p q =>
      if ((lo <=? p) && (p <? k)) && w p q then v p q else f p q))); auto.
  - apply mk2_ext. intros; zb; auto.
  - intros k Hk. rewrite Hb by lia. f_equal. apply mk2_ext. intros p q Hp Hq.
    destruct (Z.eqb_spec p k); simpl; subst; [|zb; auto].
    destruct (w k q); simpl; zb; auto.
Qed.

(** the same for a 3-d array: iteration i rewrites part of slice i *)
Lemma for_fill3 n m q f lo hi (w : Z -> Z -> Z -> bool) (v : Z -> Z -> Z -> A) body :
  lo <= hi -> 0 <= lo -> hi <= n ->
  (forall i g, lo <= i < hi -> body i (mk3 n m q g)
     = Ok (mk3 n m q (fun x y z => if (x =? i) && w i y z then v i y z else g x y z))) ->
  for_ (zrange lo hi) (mk3 n m q f) body
  = Ok (mk3 n m q (fun x y z => if ((lo <=? x) && (x <? hi)) && w x y z then v x y z else f x y z)).
Proof.
  intros Hle H0 Hn Hb.
  rewrite (for_closed (fun k => mk3 n m q (fun x y z =>
      if ((lo <=? x) && (x <? k)) && w x y z then v x y z else f x y z))); auto.
  - apply mk3_ext. intros; zb; auto.
  - intros k Hk. rewrite Hb by lia. f_equal. apply mk3_ext. intros x y z Hx Hy Hz.
    destruct (Z.eqb_spec x k); simpl; subst; [|zb; auto].
    destruct (w k y z); simpl; zb; auto.
Qed.
End Arr.

(** ** Boolean tests on reals *)
Lemma rltb_true x y : (x < y)%R -> rltb x y = true.
Proof. apply Rlt_bool_true. Qed.
Lemma rltb_false x y : (y <= x)%R -> rltb x y = false.
Proof. apply Rlt_bool_false. Qed.
Lemma reqb_true x y : x = y -> reqb x y = true.
Proof. apply Req_bool_true. Qed.
Lemma reqb_false x y : x <> y -> reqb x y = false.
Proof. apply Req_bool_false. Qed.
Lemma rltb_spec x y : BoolSpec (x < y)%R (y <= x)%R (rltb x y).
Proof. unfold rltb. destruct (Rlt_bool_spec x y); constructor; lra. Qed.
Lemma reqb_spec x y : BoolSpec (x = y) (x <> y) (reqb x y).
Proof. unfold reqb. destruct (Req_bool_spec x y); constructor; auto. Qed.

Lemma np_sqrt_ok x : (0 <= x)%R -> np_sqrt x = Ok (sqrt x).
Proof. intros. unfold np_sqrt. now rewrite Rlt_bool_false. Qed.

(** ** Sums *)
Lemma rsum_ext n f g : (forall k, (k < n)%nat -> f k = g k) -> rsum n f = rsum n g.
Proof. induction n; simpl; intros H; auto. rewrite IHn, H; auto. Qed.
Lemma csum_ext n f g : (forall k, (k < n)%nat -> f k = g k) -> csum n f = csum n g.
Proof. induction n; simpl; intros H; auto. rewrite IHn, H; auto. Qed.
Lemma zrsum_ext n f g : (forall k, 0 <= k < n -> f k = g k) -> zrsum n f = zrsum n g.
Proof. intros. apply rsum_ext. intros. apply H. lia. Qed.
Lemma zcsum_ext n f g : (forall k, 0 <= k < n -> f k = g k) -> zcsum n f = zcsum n g.
Proof. intros. apply csum_ext. intros. apply H. lia. Qed.

Lemma zrsum_S n f : 0 <= n -> zrsum (n + 1) f = (zrsum n f + f n)%R.
Proof.
  intros. unfold zrsum. replace (Z.to_nat (n + 1)) with (S (Z.to_nat n)) by lia.
  simpl. now rewrite Z2Nat.id.
Qed.
Lemma zcsum_S n f : 0 <= n -> zcsum (n + 1) f = Cplus (zcsum n f) (f n).
Proof.
  intros. unfold zcsum. replace (Z.to_nat (n + 1)) with (S (Z.to_nat n)) by lia.
  simpl. now rewrite Z2Nat.id.
Qed.
Lemma zrsum_0 f : zrsum 0 f = 0%R. Proof. reflexivity. Qed.
Lemma zcsum_0 f : zcsum 0 f = RtoC 0. Proof. reflexivity. Qed.

(** accumulation loop *)
Lemma for_rsum n (f : Z -> R) s body : 0 <= n ->
  (forall i acc, 0 <= i < n -> body i acc = Ok (acc + f i)%R) ->
  for_ (zrange 0 n) s body = Ok (s + zrsum n f)%R.
Proof.
  intros Hn Hb. apply (for_closed (fun i => s + zrsum i f)%R); auto.
  - rewrite zrsum_0. ring.
  - intros i Hi. rewrite Hb by lia. f_equal. rewrite zrsum_S by lia. ring.
Qed.

(** ** Painting loops: every iteration overwrites some positions with the value
    that a fixed function v prescribes there *)

Lemma existsb_zrange f lo hi : existsb f (zrange lo hi) = true <-> exists i, lo <= i < hi /\ f i = true.
Proof.
  rewrite existsb_exists. split.
  - intros (i & Hi & Hf). exists i. split; auto. now apply In_zrange.
  - intros (i & Hi & Hf). exists i. split; auto. now apply In_zrange.
Qed.
Lemma existsb_snoc f lo i : lo <= i ->
  existsb f (zrange lo (i + 1)) = existsb f (zrange lo i) || f i.
Proof. intros. rewrite zrange_snoc, existsb_app by assumption. simpl. now rewrite orb_false_r. Qed.

Section Paint.
Context {A : Type} `{Zeroed A}.

Lemma for_paint1 n f lo hi (w : Z -> Z -> bool) (v : Z -> A) body :
  lo <= hi ->
  (forall i g, lo <= i < hi ->
     body i (mk1 n g) = Ok (mk1 n (fun x => if w i x then v x else g x))) ->
  for_ (zrange lo hi) (mk1 n f) body
  = Ok (mk1 n (fun x => if existsb (fun i => w i x) (zrange lo hi) then v x else f x)).
Proof.
  intros Hle Hb.
  apply (for_closed (fun k => mk1 n (fun x =>
    if existsb (fun i => w i x) (zrange lo k) then v x else f x))); auto.
  - rewrite zrange_nil by lia. reflexivity.
  - intros i Hi. rewrite Hb by lia. f_equal. apply mk1_ext. intros x Hx.
    rewrite existsb_snoc by lia. destruct (w i x); simpl; [now rewrite orb_true_r|].
    now rewrite orb_false_r.
Qed.
Lemma for_paint2 n m f lo hi (w : Z -> Z -> Z -> bool) (v : Z -> Z -> A) body :
  lo <= hi ->
  (forall i g, lo <= i < hi ->
     body i (mk2 n m g) = Ok (mk2 n m (fun x y => if w i x y then v x y else g x y))) ->
  for_ (zrange lo hi) (mk2 n m f) body
  = Ok (mk2 n m (fun x y => if existsb (fun i => w i x y) (zrange lo hi) then v x y else f x y)).
Proof.
  intros Hle Hb.
  apply (for_closed (fun k => mk2 n m (fun x y =>
    if existsb (fun i => w i x y) (zrange lo k) then v x y else f x y))); auto.
  - rewrite zrange_nil by lia. reflexivity.
  - intros i Hi. rewrite Hb by lia. f_equal. apply mk2_ext. intros x y Hx Hy.
    rewrite existsb_snoc by lia. destruct (w i x y); simpl; [now rewrite orb_true_r|].
    now rewrite orb_false_r.
Qed.
Lemma for_paint3 n m p f lo hi (w : Z -> Z -> Z -> Z -> bool) (v : Z -> Z -> Z -> A) body :
  lo <= hi ->
  (forall i g, lo <= i < hi ->
     body i (mk3 n m p g) = Ok (mk3 n m p (fun x y z => if w i x y z then v x y z else g x y z))) ->
  for_ (zrange lo hi) (mk3 n m p f) body
  = Ok (mk3 n m p (fun x y z =>
      if existsb (fun i => w i x y z) (zrange lo hi) then v x y z else f x y z)).
Proof.
  intros Hle Hb.
  apply (for_closed (fun k => mk3 n m p (fun x y z =>
    if existsb (fun i => w i x y z) (zrange lo k) then v x y z else f x y z))); auto.
  - rewrite zrange_nil by lia. reflexivity.
  - intros i Hi. rewrite Hb by lia. f_equal. apply mk3_ext. intros x y z Hx Hy Hz.
    rewrite existsb_snoc by lia. destruct (w i x y z); simpl; [now rewrite orb_true_r|].
    now rewrite orb_false_r.
Qed.
End Paint.
