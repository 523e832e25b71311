(** * Synthesis as a sum over scales and orders; sizes of the computed filters *)

From Coq Require Import ZArith Reals List Bool Permutation Lia Lra Psatz.
From Coquelicot Require Import Rcomplements Complex.
From Flocq Require Import Core Relative IEEE754.BinarySingleNaN.
From Verif Require Import Py PyFacts ModelSamples SamplesFacts ModelFilters ModelTransforms FiltersFacts AxisymFacts DirectionFacts DirFilterFacts
  Spec SpecTransforms SpecQuad FiltersProps TransformsFacts BackendFacts LoopFacts ReconFacts RoundFacts SignalProps FrameProps.
From Verif Require Import ModelFloat ModelFloatDir ModelFloatTrans FloatProps SpecFp SpecFpDir SpecFpTrans FloatFilterProps FloatDefault FloatAccProps FloatDirFacts FloatDirProps
  FloatDirFilterProps FloatSpinProps FloatTransFacts FloatTransFilt FloatTransErr FloatTransCore FloatTransRound.
From Verif Require Import FloatFacts.
Import ListNotations.
Open Scope Z_scope.

(** ** sizes of the computed filters *)
Lemma total_vals L psi phi J_min J l : dim0 psi = J + 1 -> dim1 psi = L -> dim2 psi = 2 * L - 1 -> len1 phi = L ->
  fp_dir_total L psi phi J_min J l = dir_total L (vals3 psi) (vals1 phi) J_min J l.
Proof. intros A B C D. unfold fp_dir_total, vals3, vals1. now rewrite A, B, C, D. Qed.

Section Rng.
Variables (fexp : f64 -> f64) (fpow : f64 -> Z -> f64) (flg : f64 -> f64) (J L N J_min spin : Z) (psi : arr3 c64) (phi : arr1 f64).
Hypothesis HL : 1 <= L <= 2 ^ 52.
Hypothesis HN : 1 <= N <= 41.
Hypothesis Hg : accurate_loggamma flg.
Hypothesis Hr : relative_exp fexp.
Hypothesis Hf : accurate_exp fexp.
Hypothesis HP : exact_powers fpow J.
Hypothesis EJ : j_max L 2 = Ok J.
Hypothesis EF : filters_directional_fp fexp fpow flg J L N J_min (fint 2) spin 0 = Ok (psi, phi) \/
  filters_directional_vectorised_fp fexp fpow flg J L N J_min (fint 2) spin 0 = Ok (psi, phi).

Lemma total64 l : Z.abs spin <= l < L -> filters_directional_vectorised_fp fexp fpow flg J L N J_min (fint 2) spin 0 = Ok (psi, phi) ->
  (1 - bpow radix2 (-47) <= dir_total L (vals3 psi) (vals1 phi) J_min J l <= 1 + quad_error 2 300 + bpow radix2 (-33))%R.
Proof.
  intros Hl E. destruct (kern fexp fpow flg J L N J_min spin psi phi HL HN Hg Hr Hf HP EJ EF) as (_ & _ & _ & _ & _ & _ & _ & D0 & D1 & D2 & D3 & _).
  rewrite <- total_vals by auto. exact (fp2_dirf_adm_vec fexp fpow flg J L N J_min spin psi phi HL HN Hg Hr Hf HP EJ E l Hl).
Qed.
Lemma total64_loop l : Z.abs spin <= l < L -> filters_directional_fp fexp fpow flg J L N J_min (fint 2) spin 0 = Ok (psi, phi) ->
  (1 - bpow radix2 (-47) <= dir_total L (vals3 psi) (vals1 phi) J_min J l <= 1 + 3 * quad_error 2 300 + bpow radix2 (-31))%R.
Proof.
  intros Hl E. destruct (kern fexp fpow flg J L N J_min spin psi phi HL HN Hg Hr Hf HP EJ EF) as (_ & _ & _ & _ & _ & _ & _ & D0 & D1 & D2 & D3 & _).
  rewrite <- total_vals by auto. exact (fp2_dirf_adm fexp fpow flg J L N J_min spin psi phi HL HN Hg Hr Hf HP EJ E l Hl).
Qed.
Lemma total101 l : Z.abs spin <= l < L -> (99 / 100 <= dir_total L (vals3 psi) (vals1 phi) J_min J l <= 102 / 100)%R.
Proof.
  intros Hl. pose proof quad_err2. destruct EF as [E|E].
  - pose proof (total64_loop l Hl E) as T. change (bpow radix2 (-47)) with (/ 140737488355328)%R in T. change (bpow radix2 (-31)) with (/ 2147483648)%R in T. lra.
  - pose proof (total64 l Hl E) as T. change (bpow radix2 (-47)) with (/ 140737488355328)%R in T. change (bpow radix2 (-33)) with (/ 8589934592)%R in T. lra.
Qed.
Lemma size_psi j l n : J_min <= j <= J -> 0 <= l < L -> Z.abs n < L -> let z := get3 psi j l (L - 1 + n) in
  finite64 z /\ exists v, cval z = Cmult (nu N) (RtoC v) /\ fsize (w8 l) v.
Proof.
  intros Hj Hl Hn z. pose proof (filt64 fexp fpow flg J L N J_min spin psi phi HL HN Hg Hr Hf HP EJ EF) as HF.
  destruct (kern fexp fpow flg J L N J_min spin psi phi HL HN Hg Hr Hf HP EJ EF) as (_ & _ & _ & HJ & _ & _ & _ & D0 & D1 & D2 & D3 & _).
  destruct (psi_rng fexp fpow flg J L N J_min spin psi phi HL HN Hg Hr Hf HP EJ EF j l n ltac:(lia) Hl Hn) as (F & v & V0 & V1 & V2). fold z in F, V2.
  split; [exact F|]. exists v. split; [exact V2|]. split; [exact V0|]. split; [exact V1|].
  destruct V1 as [-> |V1]; [lra|]. assert (Vp : (0 < v)%R) by (eapply Rlt_le_trans; [apply bpow_gt_0|exact V1]).
  assert (G : get3 (vals3 psi) j l (L - 1 + n) = cval z) by (apply get3_vals; lia).
  assert (Hne : get3 (vals3 psi) j l (L - 1 + n) <> RtoC 0).
  { rewrite G. intros E. apply (f_equal Cmod) in E. rewrite (cmod_psi N v z V0 V2), Cmod_0 in E. lra. }
  destruct (f_psi_supp _ _ _ _ _ _ _ _ HF false j l n ltac:(lia) Hl Hn Hne) as (S1 & _ & _ & _ & S2).
  pose proof (total101 l ltac:(lia)) as [_ T]. eapply Rle_trans; [|exact T]. unfold dir_total. fold (w8 l).
  assert (W4 : (0 <= 4 * PI / (2 * IZR l + 1))%R) by (rewrite <- w4_sq by lia; apply Rle_0_sqr).
  assert (P0 : (0 <= 4 * PI / (2 * IZR l + 1) * get1 (vals1 phi) l ^ 2)%R) by (apply Rmult_le_pos; [exact W4|apply pow2_ge_0]).
  assert (W8 : (0 <= w8 l)%R) by (pose proof (w8_rng l ltac:(lia)) as [A _]; eapply Rle_trans; [apply bpow_ge_0|exact A]).
  assert (X : (v * v <= sumZ J_min (J + 1) (fun j => sumZ (- l) (l + 1) (fun m => Cmod (get3 (vals3 psi) j l (L - 1 + m)) ^ 2)))%R).
  { apply Rle_trans with (sumZ (- l) (l + 1) (fun m => (Cmod (get3 (vals3 psi) j l (L - 1 + m)) ^ 2)%R)).
    - apply Rle_trans with (Cmod (get3 (vals3 psi) j l (L - 1 + n)) ^ 2)%R; [rewrite G, (cmod_psi N v z V0 V2); right; ring|].
      apply (sumZ_term (- l) (l + 1) (fun m => (Cmod (get3 (vals3 psi) j l (L - 1 + m)) ^ 2)%R) n); [lia|]. intros; apply pow2_ge_0.
    - apply (sumZ_term J_min (J + 1) (fun j => sumZ (- l) (l + 1) (fun m => (Cmod (get3 (vals3 psi) j l (L - 1 + m)) ^ 2)%R)) j); [lia|].
      intros i Hi. eapply Rle_trans; [|apply (sumZ_term (- l) (l + 1) _ 0)]; [apply pow2_ge_0|lia|intros; apply pow2_ge_0]. }
  apply Rmult_le_compat_l with (r := w8 l) in X; [|exact W8]. lra.
Qed.
Lemma size_phi l : 0 <= l < L -> is_finite (get1 phi l) = true /\ fsize (w4 l * w4 l) (B2R (get1 phi l)).
Proof.
  intros Hl. pose proof (filt64 fexp fpow flg J L N J_min spin psi phi HL HN Hg Hr Hf HP EJ EF) as HF.
  destruct (kern fexp fpow flg J L N J_min spin psi phi HL HN Hg Hr Hf HP EJ EF) as (_ & _ & _ & HJ & _ & _ & _ & D0 & D1 & D2 & D3 & _).
  destruct (phi_rng fexp fpow flg J L N J_min spin psi phi HL HN Hg Hr Hf HP EJ EF l Hl) as (F & V0 & V1).
  split; [exact F|]. split; [exact V0|]. split; [exact V1|]. rewrite w4_sq by lia.
  assert (G : get1 (vals1 phi) l = B2R (get1 phi l)) by (apply get1_vals; lia).
  destruct (Req_dec (B2R (get1 phi l)) 0) as [-> |Hne]; [lra|]. rewrite <- G in Hne.
  destruct (f_phi_supp _ _ _ _ _ _ _ _ HF false l Hl Hne) as (_ & S2). pose proof (total101 l ltac:(lia)) as [_ T]. eapply Rle_trans; [|exact T].
  unfold dir_total. fold (w8 l). rewrite <- G.
  assert (W8 : (0 <= w8 l)%R) by (pose proof (w8_rng l ltac:(lia)) as [A _]; eapply Rle_trans; [apply bpow_ge_0|exact A]).
  assert (X : (0 <= sumZ J_min (J + 1) (fun j => sumZ (- l) (l + 1) (fun m => Cmod (get3 (vals3 psi) j l (L - 1 + m)) ^ 2)))%R).
  { assert (Y : forall i, (0 <= sumZ (- l) (l + 1) (fun m => Cmod (get3 (vals3 psi) i l (L - 1 + m)) ^ 2))%R).
    { intros i. eapply Rle_trans; [|apply (sumZ_term (- l) (l + 1) _ 0)]; [apply pow2_ge_0|lia|intros; apply pow2_ge_0]. }
    eapply Rle_trans; [|apply (sumZ_term J_min (J + 1) _ J)]; [apply Y|lia|intros; apply Y]. }
  apply Rmult_le_compat_l with (r := w8 l) in X; [|exact W8]. lra.
Qed.
End Rng.

(** ** weighted sums over scales and orders *)
Section U.
Variables (L N J_min J spin : Z) (mr : bool) (P : arr3 C) (F : arr1 R) (l q : Z).
Notation Lj j := (Lj_of L j 2 mr).
Notation Nj j := (Nj_of L j N 2 mr).
Notation L0 j := (L0_of j 2 mr).
Notation Ls := (Ls_of L J_min 2 mr).
Hypothesis HL : 1 <= L.
Hypothesis HN : 1 <= N <= L.
Hypothesis EJ : j_max L 2 = Ok J.
Hypothesis HJ : 0 <= J_min <= J.
Hypothesis Hl : 0 <= l < L.
Hypothesis Hq : 0 <= q < 2 * L - 1.
Lemma two1u : (1 < 2)%R. Proof. lra. Qed.
Lemma Hszu j : J_min <= j <= J -> 0 <= L0 j <= Lj j /\ 1 <= Lj j <= L /\ 1 <= Nj j <= N /\ Nj j <= L.
Proof. intros Hj. apply (sz_facts L N J 2 mr HL HN two1u EJ). lia. Qed.
Lemma HLsu : 1 <= Ls <= L.
Proof. apply (Ls_range L J_min 2 mr); [lia|lra]. Qed.

Let b j := inband L (Lj j) (L0 j) l q.
Let bs := (l <? Ls) && (Z.abs (q - (L - 1)) <? Ls).
Let js := zrange J_min (J + 1).
Let x (P : arr3 C) j i := get3 P j l (L - Nj j + 2 * i).

Definition wsum (f : Z -> Z -> R) : R := lsum (map (fun j => if b j then lsum (map (f j) (zrange 0 (Nj j))) else 0%R) js).
Definition usum (t : Z -> Z -> R) (s : R) : R := (wsum (fun j i => Cmod (x P j i) * t j i) + (if bs then w4 l * Rabs (get1 F l) * s else 0))%R.

Lemma wsum_ext f g : (forall j i, J_min <= j <= J -> b j = true -> 0 <= i < Nj j -> f j i = g j i) -> wsum f = wsum g.
Proof.
  intros H. unfold wsum. f_equal. apply map_ext_in. intros j Hj. apply In_zrange in Hj. destruct (b j) eqn:Hb; [|reflexivity]. f_equal.
  apply map_ext_in. intros i Hi. apply In_zrange in Hi. apply H; auto; lia.
Qed.
Lemma wsum_le f g : (forall j i, J_min <= j <= J -> b j = true -> 0 <= i < Nj j -> (f j i <= g j i)%R) -> (wsum f <= wsum g)%R.
Proof.
  intros H. unfold wsum. apply lsum_map_le. intros j Hj. apply In_zrange in Hj. destruct (b j) eqn:Hb; [|lra].
  apply lsum_map_le. intros i Hi. apply In_zrange in Hi. apply H; auto; lia.
Qed.
Lemma wsum_plus f g : wsum (fun j i => f j i + g j i)%R = (wsum f + wsum g)%R.
Proof.
  unfold wsum. induction js as [|j r IH]; [cbn; ring|]. cbn [map].
  match goal with |- lsum (?a :: ?m) = (lsum (?c :: ?n) + lsum (?e :: ?o))%R => change (a + lsum m = (c + lsum n) + (e + lsum o))%R end.
  rewrite IH. destruct (b j); [|ring]. assert (E : lsum (map (fun i => (f j i + g j i)%R) (zrange 0 (Nj j))) = (lsum (map (f j) (zrange 0 (Nj j))) + lsum (map (g j) (zrange 0 (Nj j))))%R).
  { induction (zrange 0 (Nj j)) as [|i is IH']; [cbn; ring|]. cbn [map].
    match goal with |- lsum (?a :: ?m) = (lsum (?c :: ?n) + lsum (?e :: ?o))%R => change (a + lsum m = (c + lsum n) + (e + lsum o))%R end. rewrite IH'. ring. }
  rewrite E. ring.
Qed.
Lemma wsum_scal a f : wsum (fun j i => a * f j i)%R = (a * wsum f)%R.
Proof.
  unfold wsum. induction js as [|j r IH]; [cbn; ring|]. cbn [map].
  match goal with |- lsum (?a :: ?m) = (?k * lsum (?c :: ?n))%R => change (a + lsum m = k * (c + lsum n))%R end.
  rewrite IH. destruct (b j); [|ring].
  assert (E : lsum (map (fun i => (a * f j i)%R) (zrange 0 (Nj j))) = (a * lsum (map (f j) (zrange 0 (Nj j))))%R).
  { induction (zrange 0 (Nj j)) as [|i is IH']; [cbn; ring|]. cbn [map].
    match goal with |- lsum (?a :: ?m) = (?k * lsum (?c :: ?n))%R => change (a + lsum m = k * (c + lsum n))%R end. rewrite IH'. ring. }
  rewrite E. ring.
Qed.
Lemma wsum_const c : (0 <= c)%R -> (wsum (fun _ _ => c) <= c * (IZR N * IZR (J + 1)))%R.
Proof.
  intros Hc. apply Rle_trans with (lsum (map (fun _ => c * IZR N)%R js)).
  - apply lsum_map_le. intros j Hj. apply In_zrange in Hj. assert (N0 : (0 <= IZR N)%R) by (apply IZR_le; lia). destruct (b j); [|now apply Rmult_le_pos].
    rewrite lsum_const, Rmult_comm. apply Rmult_le_compat_l; [exact Hc|]. rewrite zrange_length, INR_IZR_INZ. apply IZR_le. destruct (Hszu j ltac:(lia)). lia.
  - rewrite lsum_const, Rmult_comm, Rmult_assoc. apply Rmult_le_compat_l; [exact Hc|]. apply Rmult_le_compat_l; [apply IZR_le; lia|].
    unfold js. rewrite zrange_length, INR_IZR_INZ. apply IZR_le. lia.
Qed.
Lemma usum_ext t s t' s' : (forall j i, J_min <= j <= J -> b j = true -> 0 <= i < Nj j -> t j i = t' j i) -> (bs = true -> s = s') -> usum t s = usum t' s'.
Proof.
  intros H1 H2. unfold usum. f_equal; [apply wsum_ext; intros; now rewrite H1|]. destruct bs; [|reflexivity]. now rewrite H2.
Qed.
Lemma usum_le t s t' s' : (forall j i, J_min <= j <= J -> b j = true -> 0 <= i < Nj j -> (t j i <= t' j i)%R) -> (bs = true -> (s <= s')%R) -> (usum t s <= usum t' s')%R.
Proof.
  intros H1 H2. unfold usum. apply Rplus_le_compat; [apply wsum_le; intros; apply Rmult_le_compat_l; [apply Cmod_ge_0|auto]|]. destruct bs; [|lra].
  apply Rmult_le_compat_l; [apply Rmult_le_pos; [unfold w4; apply sqrt_pos|apply Rabs_pos]|auto].
Qed.
Lemma usum_lin a c t s : usum (fun j i => a * t j i + c)%R (a * s + c) = (a * usum t s + c * usum (fun _ _ => 1%R) 1)%R.
Proof.
  unfold usum. rewrite (wsum_ext _ (fun j i => a * (Cmod (x P j i) * t j i) + c * (Cmod (x P j i) * 1))%R) by (intros; ring).
  rewrite wsum_plus, !wsum_scal. destruct bs; ring.
Qed.
Lemma usum_pos t s : (forall j i, J_min <= j <= J -> b j = true -> 0 <= i < Nj j -> (0 <= t j i)%R) -> (bs = true -> (0 <= s)%R) -> (0 <= usum t s)%R.
Proof.
  intros H1 H2. eapply Rle_trans; [|apply (usum_le (fun _ _ => (0 * 0 + 0)%R) (0 * 0 + 0)%R)].
  - rewrite (usum_lin 0 0 (fun _ _ => 0%R) 0). lra.
  - intros j i A1 A2 A3. specialize (H1 j i A1 A2 A3). lra.
  - intros A. specialize (H2 A). lra.
Qed.

(** synthesis *)
Lemma syn_list Q G T S : get2 (synthesised L J_min J Q G (szf L N 2 mr) T Ls S) l q
  = (clist (map (fun j => if b j then clist (map (fun i => Cmult (x Q j i) (get3 (T j) (2 * i) l (q - (L - Lj j)))) (zrange 0 (Nj j))) else RtoC 0) js)
     + (if bs then Cmult (get2 S l (q - (L - Ls))) (RtoC (w4 l * get1 G l)) else RtoC 0))%C.
Proof.
  unfold synthesised. rewrite get2_mk by lia. cbv zeta. f_equal.
  - unfold js. rewrite clist_zrange. apply csumZ_ext. intros j Hj. unfold szf. destruct (Hszu j ltac:(lia)) as (Z1 & Z2 & Z3 & Z4).
    rewrite wp_list by lia. reflexivity.
  - unfold scaling_part. fold bs. destruct bs; [|reflexivity]. fold (w4 l). do 2 f_equal. lia.
Qed.
Lemma syn_diff T S T' S' :
  (Cmod (get2 (synthesised L J_min J P F (szf L N 2 mr) T Ls S) l q - get2 (synthesised L J_min J P F (szf L N 2 mr) T' Ls S') l q)%C
   <= usum (fun j i => Cmod (get3 (T j) (2 * i) l (q - (L - Lj j)) - get3 (T' j) (2 * i) l (q - (L - Lj j)))%C)
           (Cmod (get2 S l (q - (L - Ls)) - get2 S' l (q - (L - Ls)))%C))%R.
Proof.
  rewrite !syn_list. set (A := clist _). set (B := if bs then _ else _). set (A' := clist _). set (B' := if bs then _ else _).
  replace (A + B - (A' + B'))%C with ((A - A') + (B - B'))%C by ring. eapply Rle_trans; [apply Cmod_triangle|]. unfold usum. apply Rplus_le_compat.
  - unfold A, A'. eapply Rle_trans; [apply clist_diff|]. unfold wsum. apply lsum_map_le. intros j Hj. destruct (b j).
    + eapply Rle_trans; [apply clist_diff|]. right. f_equal. apply map_ext. intros i. rewrite <- Cmod_mult. f_equal. ring.
    + replace (RtoC 0 - RtoC 0)%C with (RtoC 0) by ring. rewrite Cmod_0. lra.
  - unfold B, B'. destruct bs.
    + match goal with |- (Cmod (?u * ?w - ?v * ?w)%C <= _)%R => replace (u * w - v * w)%C with (w * (u - v))%C by ring end.
      rewrite Cmod_mult, Cmod_R, Rabs_mult, (Rabs_pos_eq (w4 l)) by (unfold w4; apply sqrt_pos). lra.
    + replace (RtoC 0 - RtoC 0)%C with (RtoC 0) by ring. rewrite Cmod_0. lra.
Qed.
Hypothesis HP : psi_sh L J P.
Hypothesis HF : len1 F = L.
(** arrays of moduli *)
Lemma syn_mod T S t s :
  (forall j i, J_min <= j <= J -> b j = true -> 0 <= i < Nj j -> get3 (T j) (2 * i) l (q - (L - Lj j)) = RtoC (t j i)) ->
  (bs = true -> get2 S l (q - (L - Ls)) = RtoC s) ->
  get2 (synthesised L J_min J (abs3 P) (abs1 F) (szf L N 2 mr) T Ls S) l q = RtoC (usum t s).
Proof.
  intros HT HS. rewrite syn_list. unfold usum. rewrite RtoC_plus. destruct HP as (D0 & D1 & D2). f_equal.
  - unfold wsum. rewrite lsum_RtoC. f_equal. apply map_ext_in. intros j Hj. apply In_zrange in Hj. destruct (b j) eqn:Hb; [|reflexivity].
    rewrite lsum_RtoC. f_equal. apply map_ext_in. intros i Hi. apply In_zrange in Hi. destruct (Hszu j ltac:(lia)) as (Z1 & Z2 & Z3 & Z4).
    rewrite HT by (auto; lia). unfold x, abs3. rewrite get3_mk by lia. now rewrite RtoC_mult.
  - destruct bs; [|reflexivity]. rewrite HS by reflexivity. unfold abs1. rewrite get1_mk by lia. rewrite <- RtoC_mult. f_equal. ring.
Qed.

Hypothesis Spsi : psi_supp L N J spin 2 mr P.
Hypothesis Sphi : phi_supp L J_min spin 2 mr F.
Hypothesis Hm : Z.abs spin <= l /\ Z.abs (q - (L - 1)) <= l.
Lemma usum_dir : usum (fun j i => w8 l * Cmod (x P j i))%R (w4 l * Rabs (get1 F l)) = dir_total L P F J_min J l.
Proof.
  destruct HP as (D0 & D1 & D2).
  set (u := mk2 L (2 * L - 1) (fun l' q' => if (l' =? l) && (q' =? q) then RtoC 1 else RtoC 0)).
  assert (Hu : harmonic L spin u).
  { split; [reflexivity|]. split; [reflexivity|]. intros l' m. unfold u. cbn [get2 mk2]. destruct (inb L l' && inb (2 * L - 1) (L - 1 + m)) eqn:E; [|intros H; exfalso; apply H; reflexivity].
    apply andb_prop in E as [E1 E2]. apply inb_true in E1, E2. destruct (Z.eqb_spec l' l), (Z.eqb_spec (L - 1 + m) q); cbn [andb]; intros H; try (exfalso; apply H; reflexivity). lia. }
  assert (Hu1 : get2 u l q = RtoC 1) by (unfold u; rewrite get2_mk by lia; now rewrite !Z.eqb_refl).
  assert (R : get2 (syn L N J_min J 2 mr (abs3 P) (abs1 F) (map (wc L N 2 mr (abs3 P) u) (zrange J_min (J + 1))) (scaling_coefs L (abs1 F) u Ls)) l q
     = RtoC (dir_total L P F J_min J l)).
  { rewrite (recon L N J_min J spin 2 mr HL HN two1u EJ HJ (abs3 P) (abs1 F)); auto.
    - unfold scale_l. rewrite get2_mk by (unfold u; cbn [rows cols mk2]; lia). rewrite Hu1, Cmult_1_r. f_equal. unfold dir_total, abs1. rewrite get1_mk by lia.
      f_equal; [f_equal; now rewrite <- !Rsqr_pow2, <- Rsqr_abs|]. f_equal. apply sumZ_ext. intros j Hj. apply sumZ_ext. intros m Hm'. unfold abs3. rewrite get3_mk by lia.
      rewrite Cmod_R, Rabs_pos_eq by apply Cmod_ge_0. reflexivity.
    - intros j l' n Hj Hl' Hn Hne. apply Spsi; auto. intros E. apply Hne. unfold abs3. rewrite get3_mk by lia. now rewrite E, Cmod_0.
    - intros l' Hl' Hne. apply Sphi; auto. intros E. apply Hne. unfold abs1. rewrite get1_mk by lia. now rewrite E, Rabs_R0. }
  unfold syn in R. rewrite (syn_mod _ _ (fun j i => w8 l * Cmod (x P j i))%R (w4 l * Rabs (get1 F l))) in R; [now apply RtoC_inj in R| |].
  - intros j i Hj Hb Hi. rewrite Tnth_map by lia. destruct (Hszu j Hj) as (Z1 & Z2 & Z3 & Z4).
    unfold b, inband in Hb. apply andb_prop in Hb as [Hb B3]. apply andb_prop in Hb as [B1 B2]. pose proof B1 as B1'. apply Z.leb_le in B1. apply Z.ltb_lt in B2, B3.
    unfold wc, wavelet_coefs. rewrite get3_mk by lia. cbv zeta. rewrite B1'.
    replace (Z.even (2 * i - (Nj j - 1) - (Nj j - 1))) with true by (symmetry; replace (2 * i - (Nj j - 1) - (Nj j - 1)) with (2 * (i - (Nj j - 1))) by lia; apply Z.even_mul).
    cbn [andb]. replace (L - 1 + (q - (L - Lj j) - (Lj j - 1))) with q by lia. rewrite Hu1. replace (L - 1 + (2 * i - (Nj j - 1))) with (L - Nj j + 2 * i) by lia.
    unfold abs3. rewrite get3_mk by lia. rewrite Cconj_RtoC, Cmult_1_l, <- RtoC_mult. reflexivity.
  - intros Hb. unfold bs in Hb. apply andb_prop in Hb as [B1 B2]. apply Z.ltb_lt in B1, B2. unfold scaling_coefs. rewrite get2_mk by lia. cbv zeta.
    replace (L - 1 + (q - (L - Ls) - (Ls - 1))) with q by lia. rewrite Hu1, Cmult_1_l. unfold abs1. rewrite get1_mk by lia. reflexivity.
Qed.
(** the sum of the moduli of the filters, by the inequality of the means *)
Lemma usum_one c : (0 < c)%R -> (0 < w8 l)%R -> (dir_total L P F J_min J l <= 102 / 100)%R -> (w4 l * w4 l * (get1 F l * get1 F l) <= 102 / 100)%R ->
  (usum (fun _ _ => 1%R) 1 <= c * (102 / 100) + (IZR N * IZR (J + 1)) / (4 * c * w8 l) + 102 / 100)%R.
Proof.
  intros Hc Hw HD HF4. rewrite <- usum_dir in HD. unfold usum in *. assert (W4 : (0 <= w4 l)%R) by (unfold w4; apply sqrt_pos).
  assert (X : (wsum (fun j i => Cmod (x P j i) * 1) <= c * wsum (fun j i => Cmod (x P j i) * (w8 l * Cmod (x P j i))) + / (4 * c * w8 l) * (IZR N * IZR (J + 1)))%R).
  { assert (K0 : (0 < 4 * c * w8 l)%R) by (apply Rmult_lt_0_compat; lra). pose proof (Rinv_0_lt_compat _ K0) as K1.
    eapply Rle_trans; [|apply Rplus_le_compat_l, wsum_const; lra]. rewrite <- wsum_scal, <- wsum_plus. apply wsum_le. intros j i _ _ _.
    set (v := Cmod (x P j i)). apply Rmult_le_reg_l with (4 * c * w8 l)%R; [exact K0|]. rewrite Rmult_plus_distr_l, Rinv_r by lra.
    replace (4 * c * w8 l * (c * (v * (w8 l * v))))%R with ((2 * c * w8 l * v) * (2 * c * w8 l * v))%R by ring.
    pose proof (Rle_0_sqr (2 * c * w8 l * v - 1)) as SQ. unfold Rsqr in SQ. lra. }
  assert (Y : (0 <= wsum (fun j i => Cmod (x P j i) * (w8 l * Cmod (x P j i))))%R).
  { replace 0%R with (wsum (fun _ _ => 0 * 0)%R) by (rewrite (wsum_scal 0 (fun _ _ => 0%R)); ring). apply wsum_le. intros j i _ _ _. rewrite Rmult_0_l.
    apply Rmult_le_pos; [apply Cmod_ge_0|apply Rmult_le_pos; [lra|apply Cmod_ge_0]]. }
  assert (S1 : ((if bs then w4 l * Rabs (get1 F l) * 1 else 0) <= 102 / 100)%R).
  { destruct bs; [|lra]. rewrite Rmult_1_r. apply Rsqr_incr_0_var; [|lra]. unfold Rsqr. pose proof (Rsqr_abs (get1 F l)) as E. unfold Rsqr in E.
    replace (w4 l * Rabs (get1 F l) * (w4 l * Rabs (get1 F l)))%R with (w4 l * w4 l * (Rabs (get1 F l) * Rabs (get1 F l)))%R by ring. rewrite <- E. lra. }
  assert (S0 : (0 <= (if bs then w4 l * Rabs (get1 F l) * (w4 l * Rabs (get1 F l)) else 0))%R) by (destruct bs; [apply Rle_0_sqr|lra]).
  assert (Z : (c * wsum (fun j i => Cmod (x P j i) * (w8 l * Cmod (x P j i))) <= c * (102 / 100))%R) by (apply Rmult_le_compat_l; lra).
  unfold Rdiv at 2. rewrite (Rmult_comm (IZR N * IZR (J + 1))). lra.
Qed.
Lemma usum_bound : (dir_total L P F J_min J l <= 102 / 100)%R -> (w4 l * w4 l * (get1 F l * get1 F l) <= 102 / 100)%R ->
  (usum (fun _ _ => 1%R) 1 <= sqrt (IZR (N * (J + 1) * (2 * l + 1))) / 8 + 102 / 100)%R.
Proof.
  intros HD HF4. set (k := IZR (N * (J + 1))). assert (K1 : (1 <= k)%R) by (apply IZR_le; nia). assert (B1 : (1 <= IZR (2 * l + 1))%R) by (apply IZR_le; lia).
  rewrite mult_IZR. fold k. set (z := IZR (2 * l + 1)) in *. set (y := sqrt (k * z)). assert (KZ : (1 <= k * z)%R) by nra.
  assert (Y1 : (1 <= y)%R) by (rewrite <- sqrt_1; now apply sqrt_le_1_alt). assert (Y2 : (y * y = k * z)%R) by (apply sqrt_sqrt; lra).
  assert (P2 : (76 <= 8 * PI ^ 2)%R) by (pose proof pi_bounds; nra). assert (W : w8 l = (8 * PI ^ 2 / z)%R) by (unfold w8, z; now rewrite l21).
  assert (W1 : (76 / z <= w8 l)%R) by (rewrite W; apply Rmult_le_compat_r; [left; apply Rinv_0_lt_compat; lra|exact P2]).
  assert (W0 : (0 < 76 / z)%R) by (apply Rmult_lt_0_compat; [lra|apply Rinv_0_lt_compat; lra]).
  pose proof (usum_one (y / 16) ltac:(lra) ltac:(lra) HD HF4) as U. rewrite <- mult_IZR in U. fold k in U.
  assert (X : (k / (4 * (y / 16) * w8 l) <= k / (4 * (y / 16) * (76 / z)))%R).
  { apply Rmult_le_compat_l; [lra|]. apply Rinv_le_contravar; [apply Rmult_lt_0_compat; lra|]. apply Rmult_le_compat_l; lra. }
  assert (E : (k / (4 * (y / 16) * (76 / z)) = y / 19)%R).
  { replace (k / (4 * (y / 16) * (76 / z)))%R with ((k * z) / (19 * y))%R by (field; lra). rewrite <- Y2. field. lra. }
  rewrite E in X. lra.
Qed.
End U.
