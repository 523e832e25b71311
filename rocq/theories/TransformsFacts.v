(** * Closed forms of the array programs in transforms/*.py *)

From Coq Require Import ZArith Reals List Bool Lia Lra.
From Coquelicot Require Import Rcomplements Complex.
From Verif Require Import Py PyFacts ModelSamples SamplesFacts ModelFilters ModelTransforms Spec
  DirectionFacts DirFilterFacts.
Import ListNotations.
Open Scope Z_scope.

(** ** Slices *)

Lemma between2_len n a k : 0 <= a -> 1 <= k -> a + 2 * k - 1 <= n ->
  sl_len n (between2 a (a + 2 * k - 1)) = k /\ sl_start n (between2 a (a + 2 * k - 1)) = a.
Proof.
  intros. unfold sl_len, sl_start, sl_stop, sl_bound, between2, range_len. cbn [s_lo s_hi s_st].
  replace (a <? 0) with false by zb. replace (a + 2 * k - 1 <? 0) with false by zb.
  rewrite !Z.min_l by lia. replace (a <? a + 2 * k - 1) with true by zb. split; [|reflexivity].
  replace (a + 2 * k - 1 - a + 2 - 1) with (k * 2) by lia. apply Z.div_mul. lia.
Qed.
Lemma every2_len k : 1 <= k -> sl_len (2 * k - 1) every2 = k /\ sl_start (2 * k - 1) every2 = 0.
Proof.
  intros. unfold sl_len, sl_start, sl_stop, sl_bound, every2, range_len. cbn [s_lo s_hi s_st].
  replace (0 <? 2 * k - 1) with true by zb. split; [|reflexivity].
  replace (2 * k - 1 - 0 + 2 - 1) with (k * 2) by lia. apply Z.div_mul. lia.
Qed.
Lemma every2_mem k p : 1 <= k -> 0 <= p < 2 * k - 1 -> sl_mem (2 * k - 1) every2 p = Z.even p.
Proof.
  intros. unfold sl_mem, sl_start, sl_stop, sl_bound, every2. cbn [s_lo s_hi s_st].
  replace (0 <=? p) with true by zb. replace (p <? 2 * k - 1) with true by zb. cbn [andb].
  rewrite Z.sub_0_r, Zmod_even. destruct (Z.even p); reflexivity.
Qed.
Lemma from_len n a : 0 <= a <= n -> sl_len n (from a) = n - a /\ sl_start n (from a) = a.
Proof.
  intros. unfold sl_len, sl_start, sl_stop, sl_bound, from, range_len. cbn [s_lo s_hi s_st].
  replace (a <? 0) with false by zb. rewrite Z.min_l by lia. split; [|reflexivity].
  rewrite Z.div_1_r. zb.
Qed.
Lemma from_mem n a p : 0 <= a <= n -> 0 <= p < n -> sl_mem n (from a) p = (a <=? p).
Proof.
  intros. unfold sl_mem. destruct (from_len n a) as [_ ->]; auto.
  unfold sl_stop, sl_bound, from. cbn [s_lo s_hi s_st]. rewrite Z.mod_1_r. cbn [Z.eqb]. zb.
Qed.
Lemma full_len n : 0 <= n -> sl_len n full = n /\ sl_start n full = 0.
Proof.
  intros. unfold sl_len, sl_start, sl_stop, sl_bound, full, range_len. cbn [s_lo s_hi s_st].
  split; [|reflexivity]. rewrite Z.div_1_r. zb.
Qed.
Lemma upto_len n b : 0 <= b <= n -> sl_len n (upto b) = b /\ sl_start n (upto b) = 0.
Proof.
  intros. unfold sl_len. destruct (sl_upto n b) as [-> ->]; [lia|]. unfold range_len.
  cbn [s_st upto]. rewrite Z.div_1_r. split; [zb|reflexivity].
Qed.

(** ** One scale, vectorised *)

Lemma w8 l : (8 * (PI * PI) / IZR (2 * l + 1))%R = (8 * PI ^ 2 / (2 * IZR l + 1))%R.
Proof. rewrite plus_IZR, mult_IZR. f_equal. ring. Qed.
Lemma w4 l : sqrt (4 * PI / IZR (2 * l + 1)) = sqrt (4 * PI / (2 * IZR l + 1)).
Proof. now rewrite plus_IZR, mult_IZR. Qed.

(** the einsum of the filters with the Wigner weights *)
Definition wpsi (psi : arr3 C) : arr3 C :=
  mk3 (dim0 psi) (dim1 psi) (dim2 psi) (fun i l k =>
    Cmult (Cconj (get3 psi i l k)) (RtoC (8 * (PI * PI) / IZR (2 * l + 1)))).
Lemma wpsi_ok L psi : 1 <= L -> dim1 psi = L ->
  einsum_ijk_j_ijk (map3 Cconj psi) (wig_weights L) = Ok (wpsi psi).
Proof.
  intros HL HD. unfold einsum_ijk_j_ijk, wig_weights, map3. cbn [dim0 dim1 dim2 mk3 len1 mk1].
  rewrite Z.max_r, HD by lia. rewrite bdim_refl. cbn [bind]. f_equal. unfold wpsi. rewrite HD.
  apply mk3_ext. intros i l k Hi Hl Hk. rewrite !bi_in by lia.
  rewrite get3_mk, get1_mk by lia. reflexivity.
Qed.

Section Scale.
Variables (L Lj Nj L0 j : Z).
Hypothesis HL : 0 <= L0 <= Lj.
Hypothesis HLj : 1 <= Lj <= L.
Hypothesis HN : 1 <= Nj <= L.

Definition wsl (w : arr3 C) : arr2 C := mk2 (Lj - L0) Nj (fun l i => get3 w j (L0 + l) (L - Nj + 2 * i)).

Lemma islice_ok w : 0 <= j < dim0 w -> dim1 w = L -> dim2 w = 2 * L - 1 ->
  islice3 w j (between L0 Lj) (between2 (L - Nj) (L - 1 + Nj)) = Ok (wsl w).
Proof.
  intros H0 H1 H2. unfold islice3. rewrite idx_ok by lia. cbn [bind]. rewrite H1, H2.
  replace (L - 1 + Nj) with (L - Nj + 2 * Nj - 1) by lia.
  destruct (between2_len (2 * L - 1) (L - Nj) Nj) as [E1 E2]; try lia.
  destruct (slice_between L L0 Lj) as (E3 & E4 & _); try lia.
  rewrite E1, E3. f_equal. apply mk2_ext. intros l i Hl Hi. unfold sl_at. rewrite E2, E4.
  cbn [s_st between between2]. f_equal; lia.
Qed.

(** flm[L0:Lj, L-Lj:L-1+Lj] *)
Lemma flm_slice flm : rows flm = L -> cols flm = 2 * L - 1 ->
  slice2 flm (between L0 Lj) (between (L - Lj) (L - 1 + Lj))
  = mk2 (Lj - L0) (2 * Lj - 1) (fun l b => get2 flm (L0 + l) (L - Lj + b)).
Proof.
  intros H1 H2. unfold slice2. rewrite H1, H2.
  destruct (slice_between L L0 Lj) as (E1 & E2 & _); try lia.
  destruct (slice_between (2 * L - 1) (L - Lj) (L - 1 + Lj)) as (E3 & E4 & _); try lia.
  rewrite E1, E3. replace (L - 1 + Lj - (L - Lj)) with (2 * Lj - 1) by lia.
  apply mk2_ext. intros. unfold sl_at. rewrite E2, E4. cbn [s_st between]. f_equal; lia.
Qed.

Definition xan (flm : arr2 C) (w : arr3 C) : arr3 C :=
  mk3 Nj (Lj - L0) (2 * Lj - 1) (fun i l b =>
    Cmult (get2 flm (L0 + l) (L - Lj + b)) (get3 w j (L0 + l) (L - Nj + 2 * i))).
Lemma einsum_an flm w : rows flm = L -> cols flm = 2 * L - 1 ->
  einsum_lm_ln_nlm (slice2 flm (between L0 Lj) (between (L - Lj) (L - 1 + Lj))) (wsl w)
  = Ok (xan flm w).
Proof.
  intros H1 H2. rewrite flm_slice by assumption. unfold einsum_lm_ln_nlm, wsl.
  cbn [rows cols mk2]. rewrite bdim_refl. cbn [bind]. f_equal. apply mk3_ext. intros i l b Hi Hl Hb.
  rewrite !bi_in by lia. now rewrite !get2_mk by lia.
Qed.

(** f_wav_lmn[j][::2, L0:] (+)= ... on a zero array *)
Lemma upd_an op flm psi : (forall x : C, op (RtoC 0) x = x) ->
  0 <= j < dim0 psi -> dim1 psi = L -> dim2 psi = 2 * L - 1 ->
  upd3 op (mk3 (2 * Nj - 1) Lj (2 * Lj - 1) (fun _ _ _ => RtoC 0)) every2 (from L0) full
       (xan flm (wpsi psi))
  = Ok (wavelet_coefs L psi flm j Lj Nj L0).
Proof.
  intros Hop H0 H1 H2. unfold upd3. cbn [dim0 dim1 dim2 mk3 xan].
  destruct (every2_len Nj) as [E1 E2]; try lia.
  destruct (from_len Lj L0) as [E3 E4]; try lia.
  destruct (full_len (2 * Lj - 1)) as [E5 E6]; try lia.
  rewrite E1, E3, E5. unfold bok. rewrite !Z.eqb_refl. cbn [orb andb]. f_equal.
  unfold wavelet_coefs. apply mk3_ext. intros a l b Ha Hl Hb. cbv zeta.
  rewrite every2_mem, from_mem, mem_full by lia. rewrite andb_true_r.
  replace (a - (Nj - 1) - (Nj - 1)) with (a - 2 * (Nj - 1)) by lia.
  rewrite Z.even_sub, Z.even_mul. cbn [Z.even orb]. rewrite get3_mk by lia.
  destruct (Z.even a) eqn:Ea; cbn [Bool.eqb]; [|reflexivity].
  destruct (Z.leb_spec L0 l); [|reflexivity]. cbn [andb]. rewrite Hop.
  unfold sl_pos. rewrite E2, E4, E6. cbn [s_st every2 from full].
  assert (Ha' : a = 2 * (a / 2)).
  { pose proof (Z.div_mod a 2 ltac:(lia)). rewrite Zmod_even, Ea in *. lia. }
  rewrite !Z.sub_0_r, !Z.div_1_r. rewrite !bi_in by (Z.div_mod_to_equations; lia).
  unfold xan. rewrite get3_mk by (Z.div_mod_to_equations; lia).
  unfold wpsi. rewrite get3_mk by lia. rewrite w8.
  replace (L0 + (l - L0)) with l by lia. rewrite <- Ha'.
  replace (L - Lj + b) with (L - 1 + (b - (Lj - 1))) by lia.
  replace (L - Nj + a) with (L - 1 + (a - (Nj - 1))) by lia. ring.
Qed.

(** synthesis *)
Definition xsy (w T : arr3 C) : arr2 C :=
  mk2 (Lj - L0) (2 * Lj - 1) (fun l b =>
    zcsum Nj (fun i => Cmult (get3 w j (L0 + l) (L - Nj + 2 * i)) (get3 T (2 * i) (L0 + l) b))).
Lemma einsum_sy w T : dim0 T = 2 * Nj - 1 -> dim1 T = Lj -> dim2 T = 2 * Lj - 1 ->
  einsum_ln_nlm_lm (wsl w) (slice3 T every2 (from L0) full) = Ok (xsy w T).
Proof.
  intros H0 H1 H2. unfold einsum_ln_nlm_lm, slice3, wsl. rewrite H0, H1, H2.
  destruct (every2_len Nj) as [E1 E2]; try lia.
  destruct (from_len Lj L0) as [E3 E4]; try lia.
  destruct (full_len (2 * Lj - 1)) as [E5 E6]; try lia.
  cbn [rows cols mk2 dim0 dim1 dim2 mk3]. rewrite E1, E3, E5. rewrite !bdim_refl. cbn [bind].
  f_equal. unfold xsy. apply mk2_ext. intros l b Hl Hb. apply zcsum_ext. intros i Hi.
  rewrite !bi_in by lia. rewrite get2_mk, get3_mk by lia. unfold sl_at. rewrite E2, E4, E6.
  cbn [s_st every2 from full]. do 2 f_equal; lia.
Qed.
End Scale.

(** ** Complex sums *)

Lemma csum_shift n f : csum (S n) f = Cplus (f 0%nat) (csum n (fun k => f (S k))).
Proof.
  induction n.
  - simpl. ring.
  - change (csum (S (S n)) f) with (Cplus (csum (S n) f) (f (S n))).
    rewrite IHn. simpl. ring.
Qed.
Lemma cfold_seq (f : nat -> C) n k :
  fold_right Cplus (RtoC 0) (map f (seq k n)) = csum n (fun i => f (k + i)%nat).
Proof.
  revert k. induction n; intros k; [reflexivity|].
  cbn [seq map fold_right]. rewrite IHn, csum_shift. f_equal.
  - f_equal. lia.
  - apply csum_ext. intros. f_equal. lia.
Qed.
Lemma csumZ_zcsum lo hi f : csumZ lo hi f = zcsum (hi - lo) (fun i => f (lo + i)).
Proof. unfold csumZ. rewrite cfold_seq. reflexivity. Qed.
Lemma csumZ_ext lo hi f g : (forall i, lo <= i < hi -> f i = g i) -> csumZ lo hi f = csumZ lo hi g.
Proof. intros H. rewrite !csumZ_zcsum. apply zcsum_ext. intros. apply H. lia. Qed.
Lemma zcsum_zero n f : (forall i, 0 <= i < n -> f i = RtoC 0) -> zcsum n f = RtoC 0.
Proof.
  intros H. rewrite (zcsum_ext n f (fun _ => RtoC 0)) by assumption. unfold zcsum.
  induction (Z.to_nat n) as [|k IH]; [reflexivity|]. simpl. rewrite IH. ring.
Qed.
Lemma csumZ_zero lo hi f : (forall i, lo <= i < hi -> f i = RtoC 0) -> csumZ lo hi f = RtoC 0.
Proof. intros H. rewrite csumZ_zcsum. apply zcsum_zero. intros. apply H. lia. Qed.
Lemma csumZ_nil lo hi f : hi <= lo -> csumZ lo hi f = RtoC 0.
Proof. intros. apply csumZ_zero. lia. Qed.
Lemma csumZ_S lo hi f : lo <= hi -> csumZ lo (hi + 1) f = Cplus (csumZ lo hi f) (f hi).
Proof.
  intros. rewrite !csumZ_zcsum. replace (hi + 1 - lo) with (hi - lo + 1) by lia.
  rewrite zcsum_S by lia. do 2 f_equal. lia.
Qed.
Lemma zcsum_plus n f g : zcsum n (fun i => Cplus (f i) (g i)) = Cplus (zcsum n f) (zcsum n g).
Proof.
  unfold zcsum. induction (Z.to_nat n) as [|k IH]; simpl; [ring|]. rewrite IH. ring.
Qed.
Lemma zcsum_mul n f c : zcsum n (fun i => Cmult c (f i)) = Cmult c (zcsum n f).
Proof.
  unfold zcsum. induction (Z.to_nat n) as [|k IH]; simpl; [ring|]. rewrite IH. ring.
Qed.
Lemma csumZ_plus lo hi f g :
  csumZ lo hi (fun i => Cplus (f i) (g i)) = Cplus (csumZ lo hi f) (csumZ lo hi g).
Proof. rewrite !csumZ_zcsum. apply zcsum_plus. Qed.
Lemma csumZ_mul lo hi f c : csumZ lo hi (fun i => Cmult c (f i)) = Cmult c (csumZ lo hi f).
Proof. rewrite !csumZ_zcsum. apply (zcsum_mul (hi - lo) (fun i => f (lo + i))). Qed.
Lemma csumZ_split lo mid hi f : lo <= mid <= hi ->
  csumZ lo hi f = Cplus (csumZ lo mid f) (csumZ mid hi f).
Proof.
  intros [H1 H2].
  assert (Hn : hi = mid + Z.of_nat (Z.to_nat (hi - mid))) by lia.
  rewrite Hn. clear Hn H2. generalize (Z.to_nat (hi - mid)) as n. induction n.
  - replace (mid + Z.of_nat 0) with mid by lia. rewrite (csumZ_nil mid mid) by lia. ring.
  - replace (mid + Z.of_nat (S n)) with (mid + Z.of_nat n + 1) by lia.
    rewrite !csumZ_S by lia. rewrite IHn. ring.
Qed.
(** a sum over a larger range whose extra terms vanish *)
Lemma csumZ_widen lo lo' hi' hi f : lo <= lo' <= hi' -> hi' <= hi ->
  (forall i, lo <= i < hi -> ~ (lo' <= i < hi') -> f i = RtoC 0) ->
  csumZ lo hi f = csumZ lo' hi' f.
Proof.
  intros H1 H2 H. rewrite (csumZ_split lo lo' hi), (csumZ_split lo' hi' hi) by lia.
  rewrite (csumZ_zero lo lo'), (csumZ_zero hi' hi) by (intros; apply H; lia). ring.
Qed.
Lemma csumZ_shift lo hi d f : csumZ (lo + d) (hi + d) f = csumZ lo hi (fun i => f (i + d)).
Proof.
  rewrite !csumZ_zcsum. replace (hi + d - (lo + d)) with (hi - lo) by lia.
  apply zcsum_ext. intros. f_equal. lia.
Qed.
Lemma zcsum_step2 k F : 1 <= k ->
  zcsum (2 * k - 1) (fun a => if Z.even a then F a else RtoC 0) = zcsum k (fun i => F (2 * i)).
Proof.
  intros Hk. replace k with (1 + Z.of_nat (Z.to_nat (k - 1))) by lia.
  generalize (Z.to_nat (k - 1)) as n. clear k Hk. induction n.
  - change (1 + Z.of_nat 0) with 1. change (2 * 1 - 1) with 1. unfold zcsum. simpl. reflexivity.
  - replace (2 * (1 + Z.of_nat (S n)) - 1) with (2 * (1 + Z.of_nat n) - 1 + 1 + 1) by lia.
    replace (1 + Z.of_nat (S n)) with (1 + Z.of_nat n + 1) by lia.
    rewrite !(zcsum_S _ (fun a => if Z.even a then F a else RtoC 0)), IHn by lia.
    rewrite zcsum_S by lia.
    replace (2 * (1 + Z.of_nat n) - 1 + 1) with (2 * (1 + Z.of_nat n)) by lia.
    rewrite Z.even_mul. replace (Z.even (2 * (1 + Z.of_nat n) - 1)) with false; [simpl; ring|].
    rewrite Z.even_sub, Z.even_mul. reflexivity.
Qed.
(** sum over the orders -(N-1), -(N-3), ..., N-1 *)
Lemma csumZ_step2 N F : 1 <= N ->
  csumZ (- N + 1) N (fun n => if Z.even (n - (N - 1)) then F n else RtoC 0)
  = zcsum N (fun i => F (- N + 1 + 2 * i)).
Proof.
  intros HN. rewrite csumZ_zcsum. replace (N - (- N + 1)) with (2 * N - 1) by lia.
  rewrite <- (zcsum_step2 N (fun a => F (- N + 1 + a))) by assumption.
  apply zcsum_ext. intros a Ha. replace (- N + 1 + a - (N - 1)) with (a - 2 * (N - 1)) by lia.
  rewrite Z.even_sub, Z.even_mul. cbn [Z.even orb]. now destruct (Z.even a).
Qed.

(** ** One scale of synthesis *)

Lemma upd_sy L Lj Nj L0 j g psi T : 0 <= L0 <= Lj -> 1 <= Lj <= L -> 1 <= Nj <= L ->
  upd2 Cplus (mk2 L (2 * L - 1) g) (between L0 Lj) (between (L - Lj) (L - 1 + Lj))
       (xsy L Lj Nj L0 j psi T)
  = Ok (mk2 L (2 * L - 1) (fun l q => Cplus (g l q) (wavelet_part L psi j Lj Nj L0 T l (q - (L - 1))))).
Proof.
  intros HL HLj HN. unfold upd2. cbn [rows cols mk2 xsy].
  destruct (slice_between L L0 Lj) as (E1 & E2 & _); try lia.
  destruct (slice_between (2 * L - 1) (L - Lj) (L - 1 + Lj)) as (E3 & E4 & _); try lia.
  rewrite E1, E3. replace (L - 1 + Lj - (L - Lj)) with (2 * Lj - 1) by lia.
  unfold bok. rewrite !Z.eqb_refl. cbn [orb andb]. f_equal. apply mk2_ext. intros l q Hl Hq.
  rewrite !mem_between, !pos_between by lia. rewrite get2_mk by lia. unfold wavelet_part.
  replace ((L - Lj <=? q) && (q <? L - 1 + Lj)) with (Z.abs (q - (L - 1)) <? Lj) by zb.
  destruct (Z.leb_spec L0 l); cbn [andb]; [|ring].
  destruct (Z.ltb_spec l Lj); cbn [andb]; [|ring].
  destruct (Z.ltb_spec (Z.abs (q - (L - 1))) Lj); cbn [andb]; [|ring].
  f_equal. rewrite !bi_in by lia. unfold xsy. rewrite get2_mk by lia.
  rewrite (csumZ_step2 Nj (fun n => Cmult (get3 T (Nj - 1 + n) l (Lj - 1 + (q - (L - 1))))
                                          (get3 psi j l (L - 1 + n)))) by lia.
  apply zcsum_ext. intros i Hi. rewrite Cmult_comm. f_equal; f_equal; lia.
Qed.

(** ** Scaling coefficients, vectorised *)

Definition phi4 (phi : arr1 R) (Ls : Z) : arr1 R :=
  mk1 Ls (fun l => get1 phi l * sqrt (4 * PI / IZR (2 * l + 1)))%R.
Lemma phi4_ok phi L Ls : 1 <= Ls <= L -> len1 phi = L ->
  mul1 (slice1 phi (upto Ls)) (sca_weights Ls) = Ok (phi4 phi Ls).
Proof.
  intros H1 H2. unfold mul1, slice1, sca_weights. rewrite H2. cbn [len1 mk1].
  destruct (upto_len L Ls) as [E1 E2]; try lia. rewrite E1, Z.max_r by lia.
  rewrite bdim_refl. cbn [bind]. f_equal. apply mk1_ext. intros l Hl.
  rewrite !bi_in by lia. rewrite !get1_mk by lia. unfold sl_at. rewrite E2. cbn [s_st upto].
  now replace (0 + l * 1) with l by lia.
Qed.
Lemma scal_an flm phi L Ls : 1 <= Ls <= L -> rows flm = L -> cols flm = 2 * L - 1 ->
  einsum_lm_l_lm (slice2 flm (upto Ls) (between (L - Ls) (L - 1 + Ls))) (phi4 phi Ls)
  = Ok (scaling_coefs L phi flm Ls).
Proof.
  intros H1 H2 H3. unfold einsum_lm_l_lm, slice2, phi4. rewrite H2, H3.
  destruct (upto_len L Ls) as [E1 E2]; try lia.
  destruct (slice_between (2 * L - 1) (L - Ls) (L - 1 + Ls)) as (E3 & E4 & _); try lia.
  rewrite E1, E3. replace (L - 1 + Ls - (L - Ls)) with (2 * Ls - 1) by lia.
  cbn [rows cols mk2 len1 mk1]. rewrite bdim_refl. cbn [bind]. f_equal.
  unfold scaling_coefs. apply mk2_ext. intros l b Hl Hb. cbv zeta. rewrite !bi_in by lia.
  rewrite get2_mk, get1_mk by lia. unfold sl_at. rewrite E2, E4. cbn [s_st upto between].
  rewrite w4. rewrite (Rmult_comm (sqrt _)). f_equal. f_equal; lia.
Qed.
Definition xsc (phi : arr1 R) (Ls : Z) (S : arr2 C) : arr2 C :=
  mk2 Ls (2 * Ls - 1) (fun l b =>
    Cmult (get2 S l b) (RtoC (get1 phi l * sqrt (4 * PI / IZR (2 * l + 1))))).
Lemma scal_sy1 S phi Ls : 1 <= Ls -> rows S = Ls -> cols S = 2 * Ls - 1 ->
  einsum_lm_l_lm S (phi4 phi Ls) = Ok (xsc phi Ls S).
Proof.
  intros H1 H2 H3. unfold einsum_lm_l_lm, phi4. rewrite H2, H3.
  cbn [len1 mk1]. rewrite bdim_refl. cbn [bind]. f_equal.
  unfold xsc. apply mk2_ext. intros l b Hl Hb. rewrite !bi_in by lia. now rewrite get1_mk by lia.
Qed.
Lemma scal_sy2 L g S phi Ls : 1 <= Ls <= L ->
  upd2 Cplus (mk2 L (2 * L - 1) g) (upto Ls) (between (L - Ls) (L - 1 + Ls)) (xsc phi Ls S)
  = Ok (mk2 L (2 * L - 1) (fun l q => Cplus (g l q) (scaling_part phi Ls S l (q - (L - 1))))).
Proof.
  intros H. unfold upd2. cbn [rows cols mk2 xsc].
  destruct (upto_len L Ls) as [E1 E2]; try lia.
  destruct (slice_between (2 * L - 1) (L - Ls) (L - 1 + Ls)) as (E3 & E4 & _); try lia.
  rewrite E1, E3. replace (L - 1 + Ls - (L - Ls)) with (2 * Ls - 1) by lia.
  unfold bok. rewrite !Z.eqb_refl. cbn [orb andb]. f_equal. apply mk2_ext. intros l q Hl Hq.
  rewrite mem_upto, mem_between, pos_between by lia. rewrite get2_mk by lia. unfold scaling_part.
  replace ((L - Ls <=? q) && (q <? L - 1 + Ls)) with (Z.abs (q - (L - 1)) <? Ls) by zb.
  destruct (Z.ltb_spec l Ls); cbn [andb]; [|ring].
  destruct (Z.ltb_spec (Z.abs (q - (L - 1))) Ls); cbn [andb]; [|ring].
  f_equal. unfold sl_pos. rewrite E2. cbn [s_st upto]. rewrite Z.sub_0_r, Z.div_1_r.
  rewrite !bi_in by lia. unfold xsc. rewrite get2_mk by lia. rewrite w4.
  rewrite (Rmult_comm (sqrt _)). f_equal. f_equal; lia.
Qed.

(** ** Loops over scales that call an external transform *)

Lemma mapM_app {A B} (f : A -> res B) l1 l2 :
  mapM f (l1 ++ l2) = (y1 <- mapM f l1 ;; y2 <- mapM f l2 ;; Ok (y1 ++ y2)).
Proof.
  induction l1; simpl.
  - destruct (mapM f l2); reflexivity.
  - destruct (f a); simpl; auto. rewrite IHl1. destruct (mapM f l1); simpl; auto.
    destruct (mapM f l2); reflexivity.
Qed.
Lemma mapM_ext {A B} (f g : A -> res B) l : (forall x, In x l -> f x = g x) -> mapM f l = mapM g l.
Proof.
  induction l; simpl; intros H; [reflexivity|]. rewrite H by auto.
  apply bind_ext. intros. rewrite IHl by auto. reflexivity.
Qed.
Lemma mapM_ok {A B} (f : A -> res B) (g : A -> B) l :
  (forall x, In x l -> f x = Ok (g x)) -> mapM f l = Ok (map g l).
Proof.
  induction l; simpl; intros H; [reflexivity|]. rewrite H by auto. simpl.
  rewrite IHl by auto. reflexivity.
Qed.
Lemma mapM_inv {A B} (f : A -> res B) l ys : mapM f l = Ok ys ->
  length ys = length l /\
  forall i x, nth_error l i = Some x -> exists y, f x = Ok y /\ nth_error ys i = Some y.
Proof.
  revert ys; induction l; simpl; intros ys H.
  - apply Ok_inj in H. subst ys. split; [reflexivity|]. intros [|i] x Hx; discriminate.
  - apply bind_inv in H as (y & Hy & H). apply bind_inv in H as (ys' & Hys & H).
    apply Ok_inj in H. subst ys. destruct (IHl _ Hys) as [Hl Hn]. split; [simpl; congruence|].
    intros [|i] x Hx; simpl in *.
    + injection Hx as <-. eauto.
    + auto.
Qed.
Lemma mapM_err {A B} (f : A -> res B) l e : mapM f l = Err e -> exists x, In x l /\ f x = Err e.
Proof.
  induction l; simpl; intros H; [discriminate|].
  destruct (f a) eqn:E; simpl in H.
  - destruct (mapM f l) eqn:E2; simpl in H; [discriminate|].
    destruct IHl as (x & ? & ?); [congruence|]. eauto.
  - injection H as ->. eauto.
Qed.

(** simulation of a loop by mapM: R relates the outputs so far to the state *)
Lemma for_mapM {S A} (R : Z -> list A -> S -> Prop) (f : Z -> res A) lo hi s0 body :
  lo <= hi -> R lo [] s0 ->
  (forall i ys s, lo <= i < hi -> R i ys s ->
     (exists e, f i = Err e /\ body i s = Err e) \/
     (exists y s', f i = Ok y /\ body i s = Ok s' /\ R (i + 1) (ys ++ [y]) s')) ->
  (exists e, mapM f (zrange lo hi) = Err e /\ for_ (zrange lo hi) s0 body = Err e) \/
  (exists ys s', mapM f (zrange lo hi) = Ok ys /\ for_ (zrange lo hi) s0 body = Ok s' /\
     R hi ys s').
Proof.
  intros Hle H0 Hs.
  assert (Hn : hi = lo + Z.of_nat (Z.to_nat (hi - lo))) by lia.
  revert Hs. rewrite Hn. clear Hn Hle. generalize (Z.to_nat (hi - lo)) as n. clear hi.
  induction n; intros Hs.
  - right. exists [], s0. rewrite zrange_nil by lia. simpl.
    replace (lo + 0) with lo by lia. auto.
  - replace (lo + Z.of_nat (Datatypes.S n)) with (lo + Z.of_nat n + 1) by lia.
    rewrite zrange_snoc by lia. rewrite mapM_app, for_app.
    destruct IHn as [(e & E1 & E2)|(ys & s' & E1 & E2 & HR)]; [intros; apply Hs; auto; lia| |].
    + left. exists e. rewrite E1, E2. auto.
    + rewrite E1, E2. cbn [bind mapM for_].
      destruct (Hs (lo + Z.of_nat n) ys s') as [(e & F1 & F2)|(y & s2 & F1 & F2 & HR2)]; auto; try lia.
      * left. exists e. rewrite F1, F2. auto.
      * right. exists (ys ++ [y]), s2. rewrite F1, F2. auto.
Qed.

(** analysis loops: a list of Wigner arrays is filled in, outputs are appended *)
Lemma loop_append {X A} (z v : Z -> X) (f : Z -> res A) lo hi body :
  lo <= hi ->
  (forall j l fw, lo <= j < hi -> lrd l (j - lo) = Ok (z j) ->
     body j (l, fw) = (l' <- lwr l (j - lo) (v j) ;; y <- f j ;; Ok (l', fw ++ [y]))) ->
  for_ (zrange lo hi) (map z (zrange lo hi), []) body
  = (ys <- mapM f (zrange lo hi) ;; Ok (map v (zrange lo hi), ys)).
Proof.
  intros Hle Hb.
  destruct (for_mapM (fun k ys (s : list X * list A) =>
      s = (map (fun j => if j <? k then v j else z j) (zrange lo hi), ys)) f lo hi
      (map z (zrange lo hi), []) body) as [(e & E1 & E2)|(ys & s' & E1 & E2 & E3)]; auto.
  - f_equal. apply map_zrange_ext. intros; zb; auto.
  - intros i ys s Hi ->. rewrite Hb; auto.
    2:{ rewrite lrd_map by lia. now rewrite Z.ltb_irrefl. }
    rewrite lwr_map by lia. cbn [bind]. destruct (f i) as [y|e]; cbn [bind].
    + right. exists y. eexists. repeat split. f_equal. apply map_zrange_ext. intros.
      zb; subst; auto.
    + left. eauto.
  - rewrite E1, E2. reflexivity.
  - rewrite E1, E2, E3. cbn [bind]. do 2 f_equal. apply map_zrange_ext. intros; zb; auto.
Qed.

(** the same when the outputs overwrite a preallocated list *)
Lemma loop_lwr {X A B} (z v : Z -> X) (b0 : Z -> B) (f : Z -> res A) (h : A -> B) lo hi body :
  lo <= hi ->
  (forall j l fw, lo <= j < hi -> lrd l (j - lo) = Ok (z j) -> length fw = Z.to_nat (hi - lo) ->
     body j (l, fw) = (l' <- lwr l (j - lo) (v j) ;; y <- f j ;; fw' <- lwr fw (j - lo) (h y) ;;
                       Ok (l', fw'))) ->
  for_ (zrange lo hi) (map z (zrange lo hi), map b0 (zrange lo hi)) body
  = (ys <- mapM f (zrange lo hi) ;; Ok (map v (zrange lo hi), map h ys)).
Proof.
  intros Hle Hb.
  destruct (for_mapM (fun k ys (s : list X * list B) =>
      length ys = Z.to_nat (k - lo) /\
      s = (map (fun j => if j <? k then v j else z j) (zrange lo hi),
           map h ys ++ map b0 (zrange k hi))) f lo hi
      (map z (zrange lo hi), map b0 (zrange lo hi)) body)
    as [(e & E1 & E2)|(ys & s' & E1 & E2 & E3 & E4)]; auto.
  - split; [simpl; lia|]. f_equal. apply map_zrange_ext. intros; zb; auto.
  - intros i ys s Hi [Hl ->]. rewrite Hb; auto.
    2:{ rewrite lrd_map by lia. now rewrite Z.ltb_irrefl. }
    2:{ rewrite app_length, !map_length, zrange_length. lia. }
    rewrite lwr_map by lia. cbn [bind]. destruct (f i) as [y|e]; cbn [bind]; [|left; eauto].
    right. exists y. unfold lwr. rewrite app_length, !map_length, zrange_length.
    rewrite idx_ok by lia. cbn [bind]. eexists. split; [reflexivity|]. split; [reflexivity|].
    split; [rewrite app_length; simpl; lia|]. f_equal.
    + apply map_zrange_ext. intros. zb; subst; auto.
    + rewrite (zrange_cons i hi) by lia. cbn [map]. rewrite map_app, <- app_assoc. cbn [map app].
      replace (Z.to_nat (i - lo)) with (length (map h ys)) by (rewrite map_length; lia).
      generalize (map h ys) as p. intros p. induction p; simpl; [reflexivity|]. now rewrite IHp.
  - rewrite E1, E2. reflexivity.
  - rewrite E1, E2, E4. cbn [bind]. do 2 f_equal.
    + apply map_zrange_ext. intros; zb; auto.
    + rewrite zrange_nil by lia. apply app_nil_r.
Qed.

(** outputs only *)
Lemma loop_out {A} (f : Z -> res A) lo hi body : lo <= hi ->
  (forall j fw, lo <= j < hi -> body j fw = (y <- f j ;; Ok (fw ++ [y]))) ->
  for_ (zrange lo hi) [] body = mapM f (zrange lo hi).
Proof.
  intros Hle Hb.
  destruct (for_mapM (fun _ ys s => s = ys) f lo hi [] body)
    as [(e & E1 & E2)|(ys & s' & E1 & E2 & E3)]; auto.
  - intros i ys s Hi ->. rewrite Hb by assumption. destruct (f i); cbn [bind]; [right|left]; eauto.
  - now rewrite E1, E2.
  - rewrite E1, E2. now f_equal.
Qed.

(** synthesis loops: add the contribution of each scale *)
Definition Tnth {A} (d : A) (lo : Z) (Ts : list A) (j : Z) : A := nth (Z.to_nat (j - lo)) Ts d.
Lemma Tnth_app {A} (d : A) lo Ts y j : lo <= j -> Z.to_nat (j - lo) <> length Ts ->
  Tnth d lo (Ts ++ [y]) j = Tnth d lo Ts j.
Proof.
  intros. unfold Tnth. destruct (lt_dec (Z.to_nat (j - lo)) (length Ts)).
  - apply app_nth1. assumption.
  - rewrite app_nth2 by lia. rewrite !nth_overflow; auto; simpl; lia.
Qed.
Lemma Tnth_last {A} (d : A) lo Ts y j : lo <= j -> Z.to_nat (j - lo) = length Ts ->
  Tnth d lo (Ts ++ [y]) j = y.
Proof. intros. unfold Tnth. rewrite H0, app_nth2, Nat.sub_diag by lia. reflexivity. Qed.

Lemma loop_sum (n m : Z) (d : arr3 C) (part : Z -> arr3 C -> Z -> Z -> C) (f : Z -> res (arr3 C))
    lo hi body :
  lo <= hi ->
  (forall j g, lo <= j < hi ->
     body j (mk2 n m g) = (T <- f j ;; Ok (mk2 n m (fun l q => Cplus (g l q) (part j T l q))))) ->
  for_ (zrange lo hi) (mk2 n m (fun _ _ => RtoC 0)) body
  = (Ts <- mapM f (zrange lo hi) ;;
     Ok (mk2 n m (fun l q => csumZ lo hi (fun j => part j (Tnth d lo Ts j) l q)))).
Proof.
  intros Hle Hb.
  destruct (for_mapM (fun k ys s => length ys = Z.to_nat (k - lo) /\
      s = mk2 n m (fun l q => csumZ lo k (fun j => part j (Tnth d lo ys j) l q))) f lo hi
      (mk2 n m (fun _ _ => RtoC 0)) body)
    as [(e & E1 & E2)|(ys & s' & E1 & E2 & E3 & E4)]; auto.
  - split; [simpl; lia|]. apply mk2_ext. intros. now rewrite csumZ_nil by lia.
  - intros i ys s Hi [Hl ->]. rewrite Hb by assumption.
    destruct (f i) as [T|e]; cbn [bind]; [right|left; eauto].
    exists T. eexists. split; [reflexivity|]. split; [reflexivity|].
    split; [rewrite app_length; simpl; lia|]. apply mk2_ext. intros l q Hx Hy.
    rewrite csumZ_S by lia. rewrite Tnth_last by lia. f_equal. apply csumZ_ext. intros j Hj.
    rewrite Tnth_app by lia. reflexivity.
  - now rewrite E1, E2.
  - rewrite E1, E2. cbn [bind]. now f_equal.
Qed.
