(** * Closed forms of the binary64 transforms *)

From Coq Require Import ZArith Reals List Bool Lia.
From Flocq Require Import Core IEEE754.BinarySingleNaN.
From Verif Require Import Py PyFacts ModelSamples SamplesFacts ModelFloat ModelFloatDir ModelFloatTrans Spec DirectionFacts DirFilterFacts TransformsFacts.
Import ListNotations.
Open Scope Z_scope.

Definition w8f (l : Z) : f64 := fdiv (fmul (fint 8) (fmul fpi fpi)) (fint (2 * l + 1)).
Definition w4f (l : Z) : f64 := fsqrt (fdiv (fmul (fint 4) fpi) (fint (2 * l + 1))).

(** ** One scale *)
Section Scale.
Variables (L Lj Nj L0 j : Z).
Hypothesis HL : 0 <= L0 <= Lj.
Hypothesis HLj : 1 <= Lj <= L.
Hypothesis HN : 1 <= Nj <= L.

Definition wpsi64 (psi : arr3 c64) : arr3 c64 :=
  mk3 (dim0 psi) (dim1 psi) (dim2 psi) (fun i l k => cmul (cconj64 (get3 psi i l k)) (creal (w8f l))).
Lemma wpsi64_ok psi : dim1 psi = L ->
  einsum_jln_l_fp (map3 cconj64 psi) (wig_weights_fp L) = Ok (wpsi64 psi).
Proof.
  intros HD. unfold einsum_jln_l_fp, wig_weights_fp, map3. cbn [dim0 dim1 dim2 mk3 len1 mk1].
  rewrite Z.max_r, HD by lia. rewrite bdim_refl. cbn [bind]. f_equal. unfold wpsi64. rewrite HD.
  apply mk3_ext. intros i l k Hi Hl Hk. rewrite !bi_in by lia.
  rewrite get3_mk, get1_mk by lia. reflexivity.
Qed.

Definition wsl64 (w : arr3 c64) : arr2 c64 := mk2 (Lj - L0) Nj (fun l i => get3 w j (L0 + l) (L - Nj + 2 * i)).
Lemma islice64_ok w : 0 <= j < dim0 w -> dim1 w = L -> dim2 w = 2 * L - 1 ->
  islice3 w j (between L0 Lj) (between2 (L - Nj) (L - 1 + Nj)) = Ok (wsl64 w).
Proof.
  intros H0 H1 H2. unfold islice3. rewrite idx_ok by lia. cbn [bind]. rewrite H1, H2.
  replace (L - 1 + Nj) with (L - Nj + 2 * Nj - 1) by lia.
  destruct (between2_len (2 * L - 1) (L - Nj) Nj) as [E1 E2]; try lia.
  destruct (slice_between L L0 Lj) as (E3 & E4 & _); try lia.
  rewrite E1, E3. f_equal. apply mk2_ext. intros l i Hl Hi. unfold sl_at. rewrite E2, E4.
  cbn [s_st between between2]. f_equal; lia.
Qed.

Definition xan64 (flm : arr2 c64) (w : arr3 c64) : arr3 c64 :=
  mk3 Nj (Lj - L0) (2 * Lj - 1) (fun i l b => cmul (get2 flm (L0 + l) (L - Lj + b)) (get3 w j (L0 + l) (L - Nj + 2 * i))).
Lemma einsum_an64 flm w : rows flm = L -> cols flm = 2 * L - 1 ->
  einsum_lm_ln_nlm_fp (slice2 flm (between L0 Lj) (between (L - Lj) (L - 1 + Lj))) (wsl64 w) = Ok (xan64 flm w).
Proof.
  intros H1 H2.
  assert (E : slice2 flm (between L0 Lj) (between (L - Lj) (L - 1 + Lj))
    = mk2 (Lj - L0) (2 * Lj - 1) (fun l b => get2 flm (L0 + l) (L - Lj + b))).
  { unfold slice2. rewrite H1, H2. destruct (slice_between L L0 Lj) as (E3 & E4 & _); try lia.
    destruct (slice_between (2 * L - 1) (L - Lj) (L - 1 + Lj)) as (E5 & E6 & _); try lia.
    rewrite E3, E5. replace (L - 1 + Lj - (L - Lj)) with (2 * Lj - 1) by lia.
    apply mk2_ext. intros l b Hl Hb. unfold sl_at. rewrite E4, E6. cbn [s_st between]. f_equal; lia. }
  rewrite E. unfold einsum_lm_ln_nlm_fp, wsl64.
  cbn [rows cols mk2]. rewrite bdim_refl. cbn [bind]. f_equal. apply mk3_ext. intros i l b Hi Hl Hb.
  rewrite !bi_in by lia. now rewrite !get2_mk by lia.
Qed.

Definition wav64 (psi : arr3 c64) (flm : arr2 c64) : arr3 c64 :=
  mk3 (2 * Nj - 1) Lj (2 * Lj - 1) (fun a l b =>
    if Z.even a && (L0 <=? l)
    then cmul (get2 flm l (L - Lj + b)) (cmul (cconj64 (get3 psi j l (L - Nj + a))) (creal (w8f l)))
    else creal (fint 0)).
Lemma upd_an64 flm psi : 0 <= j < dim0 psi -> dim1 psi = L -> dim2 psi = 2 * L - 1 ->
  upd3 assign (mk3 (2 * Nj - 1) Lj (2 * Lj - 1) (fun _ _ _ => creal (fint 0))) every2 (from L0) full (xan64 flm (wpsi64 psi))
  = Ok (wav64 psi flm).
Proof.
  intros H0 H1 H2. unfold upd3. cbn [dim0 dim1 dim2 mk3 xan64].
  destruct (every2_len Nj) as [E1 E2]; try lia.
  destruct (from_len Lj L0) as [E3 E4]; try lia.
  destruct (full_len (2 * Lj - 1)) as [E5 E6]; try lia.
  rewrite E1, E3, E5. unfold bok. rewrite !Z.eqb_refl. cbn [orb andb]. f_equal.
  unfold wav64. apply mk3_ext. intros a l b Ha Hl Hb.
  rewrite every2_mem, from_mem, mem_full by lia. rewrite andb_true_r. rewrite get3_mk by lia.
  destruct (Z.even a) eqn:Ev; cbn [andb]; [|reflexivity].
  destruct (Z.leb_spec L0 l); [|reflexivity]. unfold assign.
  unfold sl_pos. rewrite E2, E4, E6. cbn [s_st every2 from full].
  assert (Hc : a = 2 * (a / 2)) by (apply Z.even_spec in Ev; destruct Ev as [c Hc]; rewrite Hc; rewrite (Z.mul_comm 2 c), Z.div_mul; lia).
  set (c := a / 2) in *. rewrite Hc.
  replace ((2 * c - 0) / 2) with c by (rewrite Z.sub_0_r, Z.mul_comm, Z.div_mul; lia).
  rewrite !Z.div_1_r. rewrite !bi_in by lia. unfold xan64, wpsi64. rewrite get3_mk by lia. rewrite get3_mk by lia.
  replace (L0 + (l - L0)) with l by lia. replace (b - 0) with b by lia. reflexivity.
Qed.

Definition xsy64 (fsum : Z -> Z -> list f64 -> f64) (w : arr3 c64) (T : arr3 c64) : arr2 c64 :=
  mk2 (Lj - L0) (2 * Lj - 1) (fun l b => csum64 (fsum l b)
    (map (fun i => cmul (get3 w j (L0 + l) (L - Nj + 2 * i)) (get3 T (2 * i) (L0 + l) b)) (zrange 0 Nj))).
Lemma einsum_sy64 fsum w T : dim0 T = 2 * Nj - 1 -> dim1 T = Lj -> dim2 T = 2 * Lj - 1 ->
  einsum_ln_nlm_lm_fp fsum (wsl64 w) (slice3 T every2 (from L0) full) = Ok (xsy64 fsum w T).
Proof.
  intros H0 H1 H2. unfold einsum_ln_nlm_lm_fp, slice3, wsl64. rewrite H0, H1, H2.
  destruct (every2_len Nj) as [E1 E2]; try lia.
  destruct (from_len Lj L0) as [E3 E4]; try lia.
  destruct (full_len (2 * Lj - 1)) as [E5 E6]; try lia.
  cbn [rows cols mk2 dim0 dim1 dim2 mk3]. rewrite E1, E3, E5. rewrite !bdim_refl. cbn [bind].
  f_equal. unfold xsy64. apply mk2_ext. intros l b Hl Hb. f_equal. apply map_ext_in. intros i Hi.
  apply In_zrange in Hi.
  rewrite !bi_in by lia. rewrite get2_mk, get3_mk by lia. unfold sl_at. rewrite E2, E4, E6.
  cbn [s_st every2 from full]. do 2 f_equal; lia.
Qed.

(** what one scale does to the accumulated coefficient a at (l, q) *)
Definition inband (l q : Z) : bool := (L0 <=? l) && (l <? Lj) && (Z.abs (q - (L - 1)) <? Lj).
Definition terms64 (psi T : arr3 c64) (l q : Z) : list c64 :=
  map (fun i => cmul (get3 psi j l (L - Nj + 2 * i)) (get3 T (2 * i) l (q - (L - Lj)))) (zrange 0 Nj).
Definition step64 (fsum : Z -> Z -> list f64 -> f64) (psi T : arr3 c64) (l q : Z) (a : c64) : c64 :=
  if inband l q then cadd a (csum64 (fsum (l - L0) (q - (L - Lj))) (terms64 psi T l q)) else a.
Lemma upd_sy64 fsum g psi T :
  upd2 cadd (mk2 L (2 * L - 1) g) (between L0 Lj) (between (L - Lj) (L - 1 + Lj)) (xsy64 fsum psi T)
  = Ok (mk2 L (2 * L - 1) (fun l q => step64 fsum psi T l q (g l q))).
Proof.
  unfold upd2. cbn [rows cols mk2 xsy64].
  destruct (slice_between L L0 Lj) as (E1 & E2 & _); try lia.
  destruct (slice_between (2 * L - 1) (L - Lj) (L - 1 + Lj)) as (E3 & E4 & _); try lia.
  rewrite E1, E3. replace (L - 1 + Lj - (L - Lj)) with (2 * Lj - 1) by lia.
  unfold bok. rewrite !Z.eqb_refl. cbn [orb andb]. f_equal. apply mk2_ext. intros l q Hl Hq.
  rewrite !mem_between, !pos_between by lia. rewrite get2_mk by lia. unfold step64, inband.
  replace ((L - Lj <=? q) && (q <? L - 1 + Lj)) with (Z.abs (q - (L - 1)) <? Lj) by zb.
  destruct (Z.leb_spec L0 l); cbn [andb]; [|reflexivity].
  destruct (Z.ltb_spec l Lj); cbn [andb]; [|reflexivity].
  destruct (Z.ltb_spec (Z.abs (q - (L - 1))) Lj); cbn [andb]; [|reflexivity].
  f_equal. rewrite !bi_in by lia. unfold xsy64. rewrite get2_mk by lia.
  f_equal. unfold terms64. apply map_ext. intros i. now replace (L0 + (l - L0)) with l by lia.
Qed.
End Scale.

(** ** Scaling coefficients *)
Definition phi64 (phi : arr1 f64) (Ls : Z) : arr1 f64 := mk1 Ls (fun l => fmul (get1 phi l) (w4f l)).
Lemma phi64_ok phi L Ls : 1 <= Ls <= L -> len1 phi = L ->
  mul1_fp (slice1 phi (upto Ls)) (sca_weights_fp Ls) = Ok (phi64 phi Ls).
Proof.
  intros H1 H2. unfold mul1_fp, slice1, sca_weights_fp. rewrite H2. cbn [len1 mk1].
  destruct (upto_len L Ls) as [E1 E2]; try lia. rewrite E1, Z.max_r by lia.
  rewrite bdim_refl. cbn [bind]. f_equal. apply mk1_ext. intros l Hl.
  rewrite !bi_in by lia. rewrite !get1_mk by lia. unfold sl_at. rewrite E2. cbn [s_st upto].
  now replace (0 + l * 1) with l by lia.
Qed.
Definition sca64 (L : Z) (phi : arr1 f64) (flm : arr2 c64) (Ls : Z) : arr2 c64 :=
  mk2 Ls (2 * Ls - 1) (fun l b => cmul (get2 flm l (L - Ls + b)) (creal (fmul (get1 phi l) (w4f l)))).
Lemma scal_an64 flm phi L Ls : 1 <= Ls <= L -> rows flm = L -> cols flm = 2 * L - 1 ->
  einsum_lm_l_lm_fp (slice2 flm (upto Ls) (between (L - Ls) (L - 1 + Ls))) (phi64 phi Ls) = Ok (sca64 L phi flm Ls).
Proof.
  intros H1 H2 H3. unfold einsum_lm_l_lm_fp, slice2, phi64. rewrite H2, H3.
  destruct (upto_len L Ls) as [E1 E2]; try lia.
  destruct (slice_between (2 * L - 1) (L - Ls) (L - 1 + Ls)) as (E3 & E4 & _); try lia.
  rewrite E1, E3. replace (L - 1 + Ls - (L - Ls)) with (2 * Ls - 1) by lia.
  cbn [rows cols mk2 len1 mk1]. rewrite bdim_refl. cbn [bind]. f_equal.
  unfold sca64. apply mk2_ext. intros l b Hl Hb. rewrite !bi_in by lia.
  rewrite get2_mk, get1_mk by lia. unfold sl_at. rewrite E2, E4. cbn [s_st upto between].
  f_equal. f_equal; lia.
Qed.
Definition xsc64 (phi : arr1 f64) (Ls : Z) (S : arr2 c64) : arr2 c64 :=
  mk2 Ls (2 * Ls - 1) (fun l b => cmul (get2 S l b) (creal (fmul (get1 phi l) (w4f l)))).
Lemma scal_sy64 S phi Ls : 1 <= Ls -> rows S = Ls -> cols S = 2 * Ls - 1 ->
  einsum_lm_l_lm_fp S (phi64 phi Ls) = Ok (xsc64 phi Ls S).
Proof.
  intros H1 H2 H3. unfold einsum_lm_l_lm_fp, phi64. rewrite H2, H3.
  cbn [len1 mk1]. rewrite bdim_refl. cbn [bind]. f_equal.
  unfold xsc64. apply mk2_ext. intros l b Hl Hb. rewrite !bi_in by lia. now rewrite get1_mk by lia.
Qed.
Definition sstep64 (L : Z) (phi : arr1 f64) (Ls : Z) (S : arr2 c64) (l q : Z) (a : c64) : c64 :=
  if (l <? Ls) && (Z.abs (q - (L - 1)) <? Ls)
  then cadd a (cmul (get2 S l (q - (L - Ls))) (creal (fmul (get1 phi l) (w4f l)))) else a.
Lemma scal_up64 L g S phi Ls : 1 <= Ls <= L ->
  upd2 cadd (mk2 L (2 * L - 1) g) (upto Ls) (between (L - Ls) (L - 1 + Ls)) (xsc64 phi Ls S)
  = Ok (mk2 L (2 * L - 1) (fun l q => sstep64 L phi Ls S l q (g l q))).
Proof.
  intros H. unfold upd2. cbn [rows cols mk2 xsc64].
  destruct (upto_len L Ls) as [E1 E2]; try lia.
  destruct (slice_between (2 * L - 1) (L - Ls) (L - 1 + Ls)) as (E3 & E4 & _); try lia.
  rewrite E1, E3. replace (L - 1 + Ls - (L - Ls)) with (2 * Ls - 1) by lia.
  unfold bok. rewrite !Z.eqb_refl. cbn [orb andb]. f_equal. apply mk2_ext. intros l q Hl Hq.
  rewrite mem_upto, mem_between, pos_between by lia. rewrite get2_mk by lia. unfold sstep64.
  replace ((L - Ls <=? q) && (q <? L - 1 + Ls)) with (Z.abs (q - (L - 1)) <? Ls) by zb.
  destruct (Z.ltb_spec l Ls); cbn [andb]; [|reflexivity].
  destruct (Z.ltb_spec (Z.abs (q - (L - 1))) Ls); cbn [andb]; [|reflexivity].
  f_equal. unfold sl_pos. rewrite E2. cbn [s_st upto]. rewrite Z.sub_0_r, Z.div_1_r.
  rewrite !bi_in by lia. unfold xsc64. rewrite get2_mk by lia. reflexivity.
Qed.

(** ** The loop over scales of a synthesis *)
Lemma loop_fold {A B} `{Zeroed A} (n m : Z) (d : B) (g0 : Z -> Z -> A) (step : Z -> B -> Z -> Z -> A -> A) (f : Z -> res B)
    lo hi body : lo <= hi ->
  (forall j g T, lo <= j < hi -> f j = Ok T -> body j (mk2 n m g) = Ok (mk2 n m (fun l q => step j T l q (g l q)))) ->
  (forall j g e, lo <= j < hi -> f j = Err e -> body j (mk2 n m g) = Err e) ->
  for_ (zrange lo hi) (mk2 n m g0) body
  = (Ts <- mapM f (zrange lo hi) ;;
     Ok (mk2 n m (fun l q => fold_left (fun a j => step j (Tnth d lo Ts j) l q a) (zrange lo hi) (g0 l q)))).
Proof.
  intros Hle Hb He.
  destruct (for_mapM (fun k ys s => length ys = Z.to_nat (k - lo) /\
      s = mk2 n m (fun l q => fold_left (fun a j => step j (Tnth d lo ys j) l q a) (zrange lo k) (g0 l q))) f lo hi
      (mk2 n m g0) body)
    as [(e & E1 & E2)|(ys & s' & E1 & E2 & E3 & E4)]; auto.
  - split; [simpl; lia|]. now rewrite zrange_nil by lia.
  - intros i ys s Hi [Hl ->].
    destruct (f i) as [T|e] eqn:Ef; [right|left; exists e; split; [reflexivity|]; apply He; auto].
    exists T. eexists. split; [reflexivity|]. split; [apply Hb; eauto|].
    split; [rewrite app_length; simpl; lia|]. apply mk2_ext. intros l q Hx Hy.
    rewrite zrange_snoc by lia. rewrite fold_left_app. cbn [fold_left]. rewrite Tnth_last by lia. f_equal.
    assert (Hin : forall j, In j (zrange lo i) -> lo <= j < i) by (intros j Hj; now apply In_zrange in Hj).
    revert Hin. generalize (g0 l q) as a. generalize (zrange lo i) as z. induction z as [|j z IH]; intros a Hin; [reflexivity|].
    cbn [fold_left]. rewrite Tnth_app by (specialize (Hin j (or_introl eq_refl)); lia). apply IH. intros; apply Hin; now right.
  - now rewrite E1, E2.
  - rewrite E1, E2. cbn [bind]. now f_equal.
Qed.

(** ** The transforms *)
Definition nd30 : arr3 c64 := mk3 0 0 0 (fun _ _ _ => creal (fint 0)).
Section Tr.
Variables (fexp : f64 -> f64) (fpow : f64 -> Z -> f64) (flg : f64 -> f64) (fsum : Z -> Z -> list f64 -> f64).
Variables (L N J_min J : Z) (lam : f64) (mr : bool) (Lj Nj L0 : Z -> Z) (Ls : Z).
Hypothesis HL : 1 <= L.
Hypothesis HN : 1 <= N.
Hypothesis HJ : 0 <= J_min <= J.
Hypothesis Esz : forall j, J_min <= j <= J -> LN_j_fp fpow L j N lam mr = Ok (Lj j, Nj j, L0 j).
Hypothesis Hsz : forall j, J_min <= j <= J -> 0 <= L0 j <= Lj j /\ 1 <= Lj j <= L /\ 1 <= Nj j <= L.
Hypothesis ELs : scal_bandlimit_fp fpow L J_min lam mr = Ok Ls.
Hypothesis HLs : 1 <= Ls <= L.

Definition fzero (j : Z) : arr3 c64 := mk3 (2 * Nj j - 1) (Lj j) (2 * Lj j - 1) (fun _ _ _ => creal (fint 0)).
Definition wv (psi : arr3 c64) (flm : arr2 c64) (j : Z) : arr3 c64 := wav64 L (Lj j) (Nj j) (L0 j) j psi flm.

Lemma construct_flmn64_ok : construct_flmn_fp fpow J L N J_min lam mr = Ok (map fzero (zrange J_min (J + 1))).
Proof.
  unfold construct_flmn_fp. rewrite (loop_out (fun j => Ok (fzero j))).
  - now rewrite (mapM_ok _ fzero).
  - lia.
  - intros j fw Hj. rewrite Esz by lia. cbn [bind]. destruct (Hsz j) as (? & ? & ?); [lia|].
    unfold zeros3. replace (0 <=? 2 * Nj j - 1) with true by zb. replace (0 <=? Lj j) with true by zb.
    replace (0 <=? 2 * Lj j - 1) with true by zb. reflexivity.
Qed.
Lemma so3_shape_nonneg l n s nside sh : 1 <= l -> 1 <= n -> so3_f_shape l n s nside = Ok sh -> forallb (fun d => 0 <=? d) sh = true.
Proof.
  unfold so3_f_shape. destruct s; cbn [ntheta nphi bind]; intros Hl Hn.
  all: try (intros E; apply Ok_inj in E; subst sh; cbn [forallb]; repeat (apply andb_true_intro; split); try reflexivity; apply Z.leb_le; lia).
  destruct nside as [k|]; intros E; try discriminate; apply Ok_inj in E; subst sh; cbn [forallb].
  repeat (apply andb_true_intro; split); try reflexivity; apply Z.leb_le; [lia|]. pose proof (Z.square_nonneg k). lia.
  discriminate.
Qed.
Lemma construct_f64_ok s nside : sampling_ok s nside -> exists b0, construct_f_fp fpow J L N J_min lam s nside false = Ok (map b0 (zrange J_min (J + 1))).
Proof.
  intros Hs. unfold construct_f_fp.
  pose proof (so3_shape_total L N s nside Hs) as E.
  destruct E as [sh E]. exists (fun _ => Nd64 sh (fun _ => creal (fint 0))).
  rewrite (loop_out (fun j => Ok (Nd64 sh (fun _ => creal (fint 0))))).
  - now rewrite (mapM_ok _ (fun _ => Nd64 sh (fun _ => creal (fint 0)))).
  - lia.
  - intros j fw Hj. unfold f_wav_j_fp, LN_j_fp, wav_j_bandlimit_fp. cbn [bind]. rewrite E. cbn [bind].
    unfold zeros_nd64. rewrite (so3_shape_nonneg L N s nside sh) by (auto; lia). reflexivity.
Qed.

Lemma analysis64_ok O f spin s nside reality psi phi : sampling_ok s (Some (if mr then 1 else 0)) ->
  filters_directional_vectorised_fp fexp fpow flg J L N J_min lam spin 0 = Ok (psi, phi) ->
  dim0 psi = J + 1 -> dim1 psi = L -> dim2 psi = 2 * L - 1 -> len1 phi = L ->
  (forall flm, fwd64 O f L spin s nside reality = Ok flm -> rows flm = L /\ cols flm = 2 * L - 1) ->
  analysis_fp fexp fpow flg O J f L N J_min lam spin 0 s nside reality mr
  = (flm <- fwd64 O f L spin s nside reality ;;
     w <- mapM (fun j => winv64 O (wv psi flm j) (Lj j) (Nj j) (L0 j) s reality nside) (zrange J_min (J + 1)) ;;
     sc <- inv64 O (sca64 L phi flm Ls) Ls spin s nside reality ;;
     Ok (w, sc)).
Proof.
  intros Hs EF P0 P1 P2 Hphi Hf. unfold analysis_fp. rewrite ELs. cbn [bind].
  unfold construct_flm_fp. rewrite ELs. cbn [bind]. rewrite zeros2_ok by lia. cbn [bind].
  rewrite construct_flmn64_ok. cbn [bind]. destruct (construct_f64_ok s _ Hs) as [b0 ->]. cbn [bind].
  rewrite EF. cbn [bind]. rewrite (wpsi64_ok L L) by lia. cbn [bind].
  apply bind_ext. intros flm Ef. destruct (Hf flm Ef) as [F1 F2].
  rewrite (loop_lwr fzero (wv psi flm) b0
     (fun j => winv64 O (wv psi flm j) (Lj j) (Nj j) (L0 j) s reality nside) (fun y => y)); [|lia|].
  - rewrite bind_assoc. apply bind_ext. intros w _. cbn [bind].
    rewrite (phi64_ok phi L) by auto. cbn [bind]. rewrite scal_an64 by auto. cbn [bind].
    apply bind_ext. intros sc _. now rewrite map_id.
  - intros j l fw Hj Hl Hfw. rewrite Esz by lia. cbn [bind]. rewrite Hl. cbn [bind].
    destruct (Hsz j) as (? & ? & ?); [lia|].
    rewrite islice64_ok by (unfold wpsi64; cbn [dim0 dim1 dim2 mk3]; lia). cbn [bind].
    rewrite einsum_an64 by lia. cbn [bind]. unfold fzero. rewrite upd_an64 by lia. cbn [bind]. reflexivity.
Qed.

Definition syn64 (psi : arr3 c64) (phi : arr1 f64) (Ts : list (arr3 c64)) (S : arr2 c64) : arr2 c64 :=
  mk2 L (2 * L - 1) (fun l q => sstep64 L phi Ls S l q
    (fold_left (fun a j => step64 L (Lj j) (Nj j) (L0 j) j fsum psi (Tnth nd30 J_min Ts j) l q a) (zrange J_min (J + 1)) (creal (fint 0)))).

Lemma synthesis64_ok O f_wav f_scal spin s nside reality psi phi :
  filters_directional_vectorised_fp fexp fpow flg J L N J_min lam spin 0 = Ok (psi, phi) ->
  dim0 psi = J + 1 -> dim1 psi = L -> dim2 psi = 2 * L - 1 -> len1 phi = L ->
  (forall S, fwd64 O f_scal Ls spin s nside reality = Ok S -> rows S = Ls /\ cols S = 2 * Ls - 1) ->
  (forall j fj T, J_min <= j <= J -> lrd f_wav (j - J_min) = Ok fj ->
     wfwd64 O fj (Lj j) (Nj j) (L0 j) s reality nside = Ok T ->
     dim0 T = 2 * Nj j - 1 /\ dim1 T = Lj j /\ dim2 T = 2 * Lj j - 1) ->
  synthesis_fp fexp fpow flg fsum O J f_wav f_scal L N J_min lam spin 0 s nside reality mr
  = (_ <- wavelet_shape_check_fp fpow J f_wav f_scal L N J_min lam s nside mr ;;
     S <- fwd64 O f_scal Ls spin s nside reality ;;
     Ts <- mapM (fun j => fj <- lrd f_wav (j - J_min) ;; wfwd64 O fj (Lj j) (Nj j) (L0 j) s reality nside) (zrange J_min (J + 1)) ;;
     inv64 O (syn64 psi phi Ts S) L spin s nside reality).
Proof.
  intros EF P0 P1 P2 Hphi HS HT. unfold synthesis_fp. apply bind_ext. intros _ _.
  rewrite ELs. cbn [bind]. rewrite zeros2_ok by lia. cbn [bind]. apply bind_ext. intros S ES. rewrite EF. cbn [bind].
  rewrite (loop_fold L (2 * L - 1) nd30 _ (fun j T => step64 L (Lj j) (Nj j) (L0 j) j fsum psi T)
    (fun j => fj <- lrd f_wav (j - J_min) ;; wfwd64 O fj (Lj j) (Nj j) (L0 j) s reality nside)); [|lia| |].
  - rewrite bind_assoc. apply bind_ext. intros Ts _. cbn [bind]. destruct (HS S ES).
    rewrite (phi64_ok phi L) by auto. cbn [bind]. rewrite scal_sy64 by lia. cbn [bind].
    rewrite scal_up64 by auto. reflexivity.
  - intros j g T Hj E. apply bind_inv in E as (fj & E1 & E2). rewrite Esz by lia. cbn [bind]. rewrite E1. cbn [bind].
    rewrite E2. cbn [bind]. destruct (HT j fj T) as (T0 & T1 & T2); auto; [lia|]. destruct (Hsz j) as (? & ? & ?); [lia|].
    rewrite islice64_ok by lia. cbn [bind]. rewrite einsum_sy64 by lia. cbn [bind]. apply upd_sy64; lia.
  - intros j g e Hj E. rewrite Esz by lia. cbn [bind]. destruct (lrd f_wav (j - J_min)); cbn [bind] in *; [|congruence].
    rewrite E. reflexivity.
Qed.
End Tr.
