(** * One analysis and synthesis in binary64, entry by entry *)

From Coq Require Import ZArith Reals List Bool Permutation Lia Lra Psatz.
From Coquelicot Require Import Rcomplements Complex.
From Flocq Require Import Core Relative IEEE754.BinarySingleNaN.
From Verif Require Import Py PyFacts ModelSamples SamplesFacts ModelFilters ModelTransforms FiltersFacts AxisymFacts DirectionFacts DirFilterFacts
  Spec SpecTransforms SpecQuad FiltersProps TransformsFacts BackendFacts LoopFacts ReconFacts RoundFacts SignalProps FrameProps.
From Verif Require Import ModelFloat ModelFloatDir ModelFloatTrans FloatProps SpecFp SpecFpDir SpecFpTrans FloatFilterProps FloatDefault FloatAccProps FloatDirFacts FloatDirProps
  FloatDirFilterProps FloatSpinProps FloatTransFacts FloatTransFilt FloatTransErr FloatTransCore FloatTransRound FloatTransSum.
From Verif Require Import FloatFacts.
Import ListNotations.
Open Scope Z_scope.

Lemma w8_size l v : 0 <= l < 2 ^ 52 -> fsize (w8 l) v -> (w8 l * v <= 9)%R.
Proof.
  intros Hl (A & _ & B). pose proof (w8_rng l Hl) as [W1 _]. assert (W0 : (0 <= w8 l)%R) by (eapply Rle_trans; [apply bpow_ge_0|exact W1]).
  assert (W2 : (w8 l <= 79)%R).
  { unfold w8. assert (B1 : (1 <= 2 * IZR l + 1)%R) by (assert (0 <= IZR l)%R by (apply IZR_le; lia); lra).
    apply Rle_trans with (8 * PI ^ 2 / 1)%R; [|pose proof pi_bounds; assert (PI <= 3.1416)%R by lra; assert (0 < PI)%R by lra; nra].
    apply Rmult_le_compat_l; [pose proof (pow2_ge_0 PI); lra|]. apply Rinv_le_contravar; lra. }
  apply Rsqr_incr_0_var; [|lra]. unfold Rsqr. replace (w8 l * v * (w8 l * v))%R with (w8 l * (w8 l * (v * v)))%R by ring.
  apply Rle_trans with (79 * (102 / 100))%R; [|lra]. apply Rmult_le_compat; auto. apply Rmult_le_pos; auto. apply Rle_0_sqr.
Qed.
Lemma w4_size l v : 0 <= l -> fsize (w4 l * w4 l) v -> (w4 l * v <= 102 / 100)%R.
Proof.
  intros Hl (A & _ & B). apply Rsqr_incr_0_var; [|lra]. unfold Rsqr. replace (w4 l * v * (w4 l * v))%R with (w4 l * w4 l * (v * v))%R by ring. lra.
Qed.

Section RT.
Variables (L N J_min J spin : Z) (mr : bool) (psi : arr3 c64) (phi : arr1 f64).
Hypothesis HL : 1 <= L <= 2 ^ 52.
Hypothesis HN : 1 <= N <= L.
Hypothesis HN' : N <= 41.
Hypothesis HJ : J <= 52.
Hypothesis HF : filt L N J_min J spin 2 (vals3 psi) (vals1 phi).
Hypothesis Hpsi : forall j l n, J_min <= j <= J -> 0 <= l < L -> Z.abs n < L -> let z := get3 psi j l (L - 1 + n) in
  finite64 z /\ exists v, cval z = Cmult (nu N) (RtoC v) /\ fsize (w8 l) v.
Hypothesis Hphi : forall l, 0 <= l < L -> is_finite (get1 phi l) = true /\ fsize (w4 l * w4 l) (B2R (get1 phi l)).

Notation Lj j := (Lj_of L j 2 mr).
Notation Nj j := (Nj_of L j N 2 mr).
Notation L0 j := (L0_of j 2 mr).
Notation Ls := (Ls_of L J_min 2 mr).
Notation wvj psi flm j := (wav64 L (Lj j) (Nj j) (L0 j) j psi flm).

Variables (flm : arr2 c64) (d B : R).
Hypothesis Hh : harmonic L spin (vals2 flm).
Hypothesis HB : (0 <= B <= bpow radix2 780)%R.
Hypothesis Hd : (0 <= d <= 1)%R.
Hypothesis Hn : numbers2 (2 * B) flm.
Definition BW : R := (19 * B + bpow radix2 (-1072))%R.

Lemma rf : rows flm = L. Proof. destruct Hh as (A & _). exact A. Qed.
Lemma cf : cols flm = 2 * L - 1. Proof. destruct Hh as (_ & A & _). exact A. Qed.
Lemma b780 : (bpow radix2 780 * 1024 <= bpow radix2 800)%R.
Proof. change 1024%R with (bpow radix2 10). rewrite <- bpow_plus. apply bpow_le. lia. Qed.
Lemma b800 : (1 <= bpow radix2 780)%R. Proof. change 1%R with (bpow radix2 0). apply bpow_le. lia. Qed.
Lemma tiny k : k <= 0 -> (0 < bpow radix2 k <= 1)%R.
Proof. intros. split; [apply bpow_gt_0|]. change 1%R with (bpow radix2 0). apply bpow_le. lia. Qed.
Lemma n900 : numbers2 (bpow radix2 900) flm.
Proof.
  intros i j Hi Hj. destruct (Hn i j Hi Hj) as [A C]. split; [exact A|]. pose proof b780. assert (bpow radix2 800 <= bpow radix2 900)%R by (apply bpow_le; lia). pose proof b800. lra.
Qed.
Lemma BW_rng : (0 <= BW <= bpow radix2 800)%R.
Proof. unfold BW. pose proof b780. pose proof b800. pose proof (tiny (-1072) ltac:(lia)). lra. Qed.

(** entries of the exact coefficients *)
Lemma wc_mod j a l b : J_min <= j <= J -> 0 <= a < 2 * Nj j - 1 -> 0 <= l < Lj j -> 0 <= b < 2 * Lj j - 1 ->
  (Cmod (get3 (wc L N 2 mr (vals3 psi) (vals2 flm) j) a l b) <= 18 * B)%R.
Proof.
  intros Hj Ha Hl Hb. destruct (Hsz L N J_min J spin mr psi phi HL HN HF j Hj) as (Z1 & Z2 & Z3 & Z4).
  unfold wc, wavelet_coefs. rewrite get3_mk by lia. cbv zeta. destruct (_ && _); [|rewrite Cmod_0; lra].
  rewrite !Cmod_mult, Cmod_conj. fold (w8 l). pose proof (w8_rng l ltac:(lia)) as [W1 _].
  assert (W0 : (0 <= w8 l)%R) by (eapply Rle_trans; [apply bpow_ge_0|exact W1]). rewrite Cmod_R, (Rabs_pos_eq (w8 l)) by exact W0.
  rewrite (psi_get L N J_min J spin psi phi HL HF) by lia. destruct (Hpsi j l (a - (Nj j - 1)) Hj ltac:(lia) ltac:(lia)) as (_ & v & V1 & V2).
  pose proof (w8_size l v ltac:(lia) V2) as W9. rewrite (cmod_psi N v _ (proj1 V2) V1).
  rewrite get2_vals by (rewrite ?rf, ?cf; lia). destruct (Hn l (L - 1 + (b - (Lj j - 1)))) as [_ C]; [rewrite rf; lia|rewrite cf; lia|].
  replace (w8 l * (Cmod (cval (get2 flm l (L - 1 + (b - (Lj j - 1))))) * v))%R with (Cmod (cval (get2 flm l (L - 1 + (b - (Lj j - 1))))) * (w8 l * v))%R by ring.
  apply Rle_trans with (2 * B * 9)%R; [|lra]. apply Rmult_le_compat; auto using Cmod_ge_0. apply Rmult_le_pos; [exact W0|apply V2].
Qed.
Lemma sc_mod l b : 0 <= l < Ls -> 0 <= b < 2 * Ls - 1 -> (Cmod (get2 (scaling_coefs L (vals1 phi) (vals2 flm) Ls) l b) <= 18 * B)%R.
Proof.
  intros Hl Hb. pose proof (HLs L J_min mr HL) as HS. unfold scaling_coefs. rewrite get2_mk by lia. cbv zeta. rewrite Cmod_mult, Cmod_R. fold (w4 l).
  rewrite (phi_get L N J_min J spin psi phi HF) by lia. destruct (Hphi l ltac:(lia)) as [_ V]. pose proof (w4_size l _ ltac:(lia) V) as W.
  rewrite Rabs_pos_eq by (apply Rmult_le_pos; [unfold w4; apply sqrt_pos|apply V]).
  rewrite get2_vals by (rewrite ?rf, ?cf; lia). destruct (Hn l (L - 1 + (b - (Ls - 1)))) as [_ C]; [rewrite rf; lia|rewrite cf; lia|].
  apply Rle_trans with (2 * B * (102 / 100))%R; [|lra]. apply Rmult_le_compat; auto using Cmod_ge_0. apply Rmult_le_pos; [unfold w4; apply sqrt_pos|apply V].
Qed.
Lemma add_up X Y r : (Cmod (X - Y)%C <= r)%R -> (Cmod X <= Cmod Y + r)%R.
Proof. intros H. replace X with (Y + (X - Y))%C by ring. eapply Rle_trans; [apply Cmod_triangle|]. lra. Qed.
Lemma wav_size j : J_min <= j <= J -> numbers3 BW (wvj psi flm j).
Proof.
  intros Hj a l b. destruct (wav_near L N J_min J spin mr psi phi HL HN HF Hpsi flm j Hj rf cf n900) as (D0 & D1 & D2 & H).
  rewrite D0, D1, D2. cbn [wc wavelet_coefs dim0 dim1 dim2 mk3]. intros Ha Hl Hb. destruct (H a l b Ha Hl Hb) as [F E]. split; [exact F|].
  pose proof (wc_mod j a l b Hj Ha Hl Hb) as M. apply add_up in E. unfold BW. change (-1072) with (1 + -1073). rewrite bpow_plus. change (bpow radix2 1) with 2%R.
  pose proof (tiny (-1073) ltac:(lia)). change (bpow radix2 (-49)) with (/ 562949953421312)%R in E. lra.
Qed.
Lemma sca_size : numbers2 BW (sca64 L phi flm Ls).
Proof.
  intros l b. destruct (sca_near L N J_min J spin mr psi phi HL HF Hphi flm rf cf n900) as (D0 & D1 & H).
  rewrite D0, D1. cbn [scaling_coefs rows cols mk2]. intros Hl Hb. destruct (H l b Hl Hb) as [F E]. split; [exact F|].
  pose proof (sc_mod l b Hl Hb) as M. apply add_up in E. unfold BW. change (-1072) with (1 + -1073). rewrite bpow_plus. change (bpow radix2 1) with 2%R.
  pose proof (tiny (-1073) ltac:(lia)). change (bpow radix2 (-49)) with (/ 562949953421312)%R in E. lra.
Qed.

(** ** synthesis of coefficients close to the computed ones *)
Variables (Ts : list (arr3 c64)) (Sc : arr2 c64) (g : arr2 c64) (kk : Z).
Hypothesis Hkk : 0 <= kk <= 2200.
Hypothesis HT : forall j, J_min <= j <= J -> let T := Tnth nd30 J_min Ts j in
  wigner (Lj j) (Nj j) (L0 j) (vals3 T) /\ near3 0 (d * BW) T (vals3 (wvj psi flm j)).
Hypothesis HS : harmonic Ls spin (vals2 Sc) /\ near2 0 (d * BW) Sc (vals2 (sca64 L phi flm Ls)).
Let T j := Tnth nd30 J_min Ts j.

Lemma dBW : (0 <= d * BW <= bpow radix2 800)%R.
Proof.
  pose proof BW_rng. split; [apply Rmult_le_pos; lra|]. apply Rle_trans with (1 * BW)%R; [apply Rmult_le_compat_r; lra|lra].
Qed.
Lemma T_ok j : J_min <= j <= J -> dim0 (T j) = 2 * Nj j - 1 /\ dim1 (T j) = Lj j /\ dim2 (T j) = 2 * Lj j - 1 /\ numbers3 (bpow radix2 900) (T j).
Proof.
  intros Hj. destruct (HT j Hj) as (_ & D0 & D1 & D2 & H). fold (T j) in D0, D1, D2, H. cbn [vals3 wav64 dim0 dim1 dim2 mk3] in D0, D1, D2, H.
  split; [exact D0|]. split; [exact D1|]. split; [exact D2|]. intros a l b. rewrite D0, D1, D2. intros Ha Hl Hb.
  destruct (H a l b Ha Hl Hb) as [F E]. split; [exact F|]. rewrite Rmult_0_l, Rplus_0_l in E.
  assert (N3 := wav_size j Hj a l b). cbn [wav64 dim0 dim1 dim2 mk3] in N3. destruct (N3 Ha Hl Hb) as [_ M]. rewrite get3_vals in E by (cbn [wav64 dim0 dim1 dim2 mk3]; lia).
  pose proof BW_rng. pose proof dBW. apply add_up in E. assert (bpow radix2 800 * 2 <= bpow radix2 900)%R by (change 2%R with (bpow radix2 1); rewrite <- bpow_plus; apply bpow_le; lia).
  lra.
Qed.
Lemma S_ok : rows Sc = Ls /\ cols Sc = 2 * Ls - 1 /\ numbers2 (bpow radix2 900) Sc.
Proof.
  destruct HS as (_ & D0 & D1 & H). cbn [vals2 sca64 rows cols mk2] in D0, D1, H.
  split; [exact D0|]. split; [exact D1|]. intros l b. rewrite D0, D1. intros Hl Hb.
  destruct (H l b Hl Hb) as [F E]. split; [exact F|]. rewrite Rmult_0_l, Rplus_0_l in E.
  assert (N3 := sca_size l b). cbn [sca64 rows cols mk2] in N3. destruct (N3 Hl Hb) as [_ M]. rewrite get2_vals in E by (cbn [sca64 rows cols mk2]; lia).
  pose proof BW_rng. pose proof dBW. apply add_up in E. assert (bpow radix2 800 * 2 <= bpow radix2 900)%R by (change 2%R with (bpow radix2 1); rewrite <- bpow_plus; apply bpow_le; lia).
  lra.
Qed.
(** the way the terms are added up *)
Definition added (l q : Z) : Prop := finite64 (get2 g l q) /\
  (Cmod (cval (get2 g l q) - get2 (synthesised L J_min J (vals3 psi) (vals1 phi) (szf L N 2 mr) (fun j => vals3 (Tnth nd30 J_min Ts j)) Ls (vals2 Sc)) l q)%C
   <= IZR kk * bpow radix2 (-52) *
      Cmod (get2 (synthesised L J_min J (abs3 (vals3 psi)) (abs1 (vals1 phi)) (szf L N 2 mr) (fun j => abs3 (vals3 (Tnth nd30 J_min Ts j))) Ls (abs2 (vals2 Sc))) l q) + bpow radix2 (-1060))%R /\
  ((forall j i, J_min <= j <= J -> inband L (Lj j) (L0 j) l q = true -> 0 <= i < Nj j ->
      cval (get3 psi j l (L - Nj j + 2 * i)) = RtoC 0 \/ cval (get3 (Tnth nd30 J_min Ts j) (2 * i) l (q - (L - Lj j))) = RtoC 0) ->
   ((l <? Ls) && (Z.abs (q - (L - 1)) <? Ls) = true -> cval (get2 Sc l (q - (L - Ls))) = RtoC 0 \/ B2R (get1 phi l) = 0%R) -> cval (get2 g l q) = RtoC 0).
Hypothesis HG : forall l q, 0 <= l < L -> 0 <= q < 2 * L - 1 -> added l q.
Lemma Tw_near j a l b : J_min <= j <= J -> 0 <= a < 2 * Nj j - 1 -> 0 <= l < Lj j -> 0 <= b < 2 * Lj j - 1 ->
  (Cmod (cval (get3 (T j) a l b) - get3 (wc L N 2 mr (vals3 psi) (vals2 flm) j) a l b)%C
   <= bpow radix2 (-49) * Cmod (get3 (wc L N 2 mr (vals3 psi) (vals2 flm) j) a l b) + (d * BW + bpow radix2 (-1073)))%R.
Proof.
  intros Hj Ha Hl Hb. destruct (HT j Hj) as (_ & D0 & D1 & D2 & H). fold (T j) in H. cbn [vals3 wav64 dim0 dim1 dim2 mk3] in H.
  destruct (H a l b Ha Hl Hb) as [_ E]. rewrite Rmult_0_l, Rplus_0_l, get3_vals in E by (cbn [wav64 dim0 dim1 dim2 mk3]; lia).
  destruct (wav_near L N J_min J spin mr psi phi HL HN HF Hpsi flm j Hj rf cf n900) as (_ & _ & _ & H'). destruct (H' a l b Ha Hl Hb) as [_ E'].
  match goal with |- (Cmod (?x - ?z)%C <= _)%R => match type of E with (Cmod (_ - ?y)%C <= _)%R => replace (x - z)%C with ((x - y) + (y - z))%C by ring end end.
  eapply Rle_trans; [apply Cmod_triangle|]. lra.
Qed.
Lemma Sw_near l b : 0 <= l < Ls -> 0 <= b < 2 * Ls - 1 ->
  (Cmod (cval (get2 Sc l b) - get2 (scaling_coefs L (vals1 phi) (vals2 flm) Ls) l b)%C
   <= bpow radix2 (-49) * Cmod (get2 (scaling_coefs L (vals1 phi) (vals2 flm) Ls) l b) + (d * BW + bpow radix2 (-1073)))%R.
Proof.
  intros Hl Hb. destruct HS as (_ & D0 & D1 & H). cbn [vals2 sca64 rows cols mk2] in H.
  destruct (H l b Hl Hb) as [_ E]. rewrite Rmult_0_l, Rplus_0_l, get2_vals in E by (cbn [sca64 rows cols mk2]; lia).
  destruct (sca_near L N J_min J spin mr psi phi HL HF Hphi flm rf cf n900) as (_ & _ & H'). destruct (H' l b Hl Hb) as [_ E'].
  match goal with |- (Cmod (?x - ?z)%C <= _)%R => match type of E with (Cmod (_ - ?y)%C <= _)%R => replace (x - z)%C with ((x - y) + (y - z))%C by ring end end.
  eapply Rle_trans; [apply Cmod_triangle|]. lra.
Qed.

Section Entry.
Variables (l q : Z).
Hypothesis Hl : 0 <= l < L.
Hypothesis Hq : 0 <= q < 2 * L - 1.

Lemma g_fin : finite64 (get2 g l q).
Proof. exact (proj1 (HG l q Hl Hq)). Qed.
(** outside the support everything vanishes *)
Lemma g_zero : ~ (Z.abs spin <= l /\ Z.abs (q - (L - 1)) <= l) -> cval (get2 g l q) = RtoC 0.
Proof.
  intros Ho. destruct (HG l q Hl Hq) as (_ & _ & Z0). apply Z0; clear Z0.
  - intros j i Hj Hb Hi. destruct (Hsz L N J_min J spin mr psi phi HL HN HF j Hj) as (Z1 & Z2 & Z3 & Z4).
    destruct (Z_lt_le_dec l (Z.abs spin)) as [Hs|Hs].
    + left. destruct (Ceq0_dec (cval (get3 psi j l (L - Nj j + 2 * i)))) as [E|Hne]; [exact E|exfalso].
      replace (L - Nj j + 2 * i) with (L - 1 + (- Nj j + 1 + 2 * i)) in Hne by lia. rewrite <- (psi_get L N J_min J spin psi phi HL HF) in Hne by lia.
      pose proof (dims L N J_min J spin psi phi HF) as (_ & _ & _ & _ & HJm).
      apply (f_psi_supp _ _ _ _ _ _ _ _ HF mr) in Hne; lia.
    + right. destruct (Ceq0_dec (cval (get3 (T j) (2 * i) l (q - (L - Lj j))))) as [E|Hne]; [exact E|exfalso].
      unfold inband in Hb. apply andb_prop in Hb as [Hb B3]. apply andb_prop in Hb as [B1 B2]. apply Z.leb_le in B1. apply Z.ltb_lt in B2, B3.
      destruct (HT j Hj) as ((_ & _ & _ & W) & _). fold (T j) in W. destruct (T_ok j Hj) as (D0 & D1 & D2 & _).
      specialize (W (2 * i - (Nj j - 1)) l (q - (L - 1))). rewrite get3_vals in W by lia.
      replace (Nj j - 1 + (2 * i - (Nj j - 1))) with (2 * i) in W by lia. replace (Lj j - 1 + (q - (L - 1))) with (q - (L - Lj j)) in W by lia.
      apply W in Hne. lia.
  - intros Hb. apply andb_prop in Hb as [B1 B2]. apply Z.ltb_lt in B1, B2. destruct (Z_lt_le_dec l (Z.abs spin)) as [Hs|Hs].
    + right. destruct (Req_dec (B2R (get1 phi l)) 0) as [E|Hne]; [exact E|exfalso]. rewrite <- (phi_get L N J_min J spin psi phi HF) in Hne by lia.
      apply (f_phi_supp _ _ _ _ _ _ _ _ HF mr) in Hne; lia.
    + left. destruct (Ceq0_dec (cval (get2 Sc l (q - (L - Ls))))) as [E|Hne]; [exact E|exfalso].
      destruct HS as ((_ & _ & W) & _). destruct S_ok as (D0 & D1 & _). specialize (W l (q - (L - 1))). rewrite get2_vals in W by lia.
      replace (Ls - 1 + (q - (L - 1))) with (q - (L - Ls)) in W by lia. apply W in Hne. lia.
Qed.

Hypothesis Hm : Z.abs spin <= l /\ Z.abs (q - (L - 1)) <= l.
Let D := dir_total L (vals3 psi) (vals1 phi) J_min J l.
Hypothesis HD : (99 / 100 <= D <= 102 / 100)%R.
Let y := sqrt (IZR (N * (J + 1) * (2 * l + 1))).

Lemma g_near : (Cmod (cval (get2 g l q) - RtoC D * cval (get2 flm l q))%C
  <= bpow radix2 (-40) * Cmod (cval (get2 flm l q)) + d * B * (12 / 5 * y + 196 / 10) + bpow radix2 (-1001))%R.
Proof.
  destruct (HG l q Hl Hq) as (_ & G & _). fold T in G.
  pose proof (dims L N J_min J spin psi phi HF) as (E0 & E1 & E2 & E3 & HJm). pose proof (f_J _ _ _ _ _ _ _ _ HF) as EJ.
  pose proof (f_psi _ _ _ _ _ _ _ _ HF) as Psh. pose proof (f_phi _ _ _ _ _ _ _ _ HF) as Phl.
  set (X := Cmod (cval (get2 flm l q))). set (e := bpow radix2 (-49)). set (c := (d * BW + bpow radix2 (-1073))%R) in *.
  set (P := vals3 psi) in *. set (F := vals1 phi) in *.
  set (xx := fun j i => get3 P j l (L - Nj j + 2 * i)).
  pose proof (usum_dir L N J_min J spin mr P F l q ltac:(lia) HN EJ ltac:(lia) Hl Hq Psh Phl (f_psi_supp _ _ _ _ _ _ _ _ HF mr) (f_phi_supp _ _ _ _ _ _ _ _ HF mr) Hm) as UD. fold D in UD.
  set (US := usum L N J_min J mr P F l q) in *. set (t0 := fun j i => (w8 l * Cmod (get3 P j l (L - Nj j + 2 * i)))%R) in *. set (s0 := (w4 l * Rabs (get1 F l))%R) in *.
  assert (U1 : (US (fun _ _ => 1%R) 1 <= y / 8 + 102 / 100)%R).
  { apply (usum_bound L N J_min J spin mr P F l q ltac:(lia) HN EJ ltac:(lia) Hl Hq Psh Phl (f_psi_supp _ _ _ _ _ _ _ _ HF mr) (f_phi_supp _ _ _ _ _ _ _ _ HF mr) Hm); [apply HD|].
    unfold F. rewrite (phi_get L N J_min J spin psi phi HF) by exact Hl. apply (Hphi l Hl). }
  assert (U0 : (0 <= US (fun _ _ => 1%R) 1)%R) by (apply usum_pos; intros; lra).
  (* the exact coefficients at this entry *)
  assert (WCE : forall j i, J_min <= j <= J -> inband L (Lj j) (L0 j) l q = true -> 0 <= i < Nj j ->
     0 <= 2 * i < 2 * Nj j - 1 /\ 0 <= l < Lj j /\ 0 <= q - (L - Lj j) < 2 * Lj j - 1 /\
     Cmod (get3 (wc L N 2 mr P (vals2 flm) j) (2 * i) l (q - (L - Lj j))) = (X * t0 j i)%R).
  { intros j i Hj Hb Hi. destruct (Hsz L N J_min J spin mr psi phi HL HN HF j Hj) as (Z1 & Z2 & Z3 & Z4).
    unfold inband in Hb. apply andb_prop in Hb as [Hb B3]. apply andb_prop in Hb as [B1 B2]. pose proof B1 as B1'. apply Z.leb_le in B1. apply Z.ltb_lt in B2, B3.
    split; [lia|]. split; [lia|]. split; [lia|]. unfold wc, wavelet_coefs. rewrite get3_mk by lia. cbv zeta. rewrite B1'.
    replace (Z.even (2 * i - (Nj j - 1) - (Nj j - 1))) with true by (symmetry; replace (2 * i - (Nj j - 1) - (Nj j - 1)) with (2 * (i - (Nj j - 1))) by lia; apply Z.even_mul).
    cbn [andb]. replace (L - 1 + (q - (L - Lj j) - (Lj j - 1))) with q by lia. replace (L - 1 + (2 * i - (Nj j - 1))) with (L - Nj j + 2 * i) by lia.
    fold (w8 l). rewrite !Cmod_mult, Cmod_conj, Cmod_R. rewrite get2_vals by (rewrite ?rf, ?cf; lia). fold X. unfold t0.
    rewrite Rabs_pos_eq; [ring|]. pose proof (w8_rng l ltac:(lia)) as [W1 _]. eapply Rle_trans; [apply bpow_ge_0|exact W1]. }
  assert (SCE : (l <? Ls) && (Z.abs (q - (L - 1)) <? Ls) = true ->
     0 <= l < Ls /\ 0 <= q - (L - Ls) < 2 * Ls - 1 /\ Cmod (get2 (scaling_coefs L F (vals2 flm) Ls) l (q - (L - Ls))) = (X * s0)%R).
  { intros Hb. apply andb_prop in Hb as [B1 B2]. apply Z.ltb_lt in B1, B2. pose proof (HLs L J_min mr HL) as HS'. split; [lia|]. split; [lia|].
    unfold scaling_coefs. rewrite get2_mk by lia. cbv zeta. replace (L - 1 + (q - (L - Ls) - (Ls - 1))) with q by lia.
    rewrite Cmod_mult, Cmod_R, Rabs_mult. rewrite get2_vals by (rewrite ?rf, ?cf; lia). fold X (w4 l). unfold s0. now rewrite (Rabs_pos_eq (w4 l)) by (unfold w4; apply sqrt_pos). }
  (* exact synthesis of the exact coefficients *)
  assert (R : get2 (synthesised L J_min J P F (szf L N 2 mr) (wc L N 2 mr P (vals2 flm)) Ls (scaling_coefs L F (vals2 flm) Ls)) l q = (RtoC D * cval (get2 flm l q))%C).
  { pose proof (recon_f L N J_min J spin 2 mr P F ltac:(lia) HN two1 HF (vals2 flm) Hh) as RF. apply (f_equal (fun a => get2 a l q)) in RF.
    unfold scale_l in RF. rewrite get2_mk in RF by (unfold vals2; cbn [rows cols mk2]; rewrite ?rf, ?cf; lia). rewrite get2_vals in RF by (rewrite ?rf, ?cf; lia). fold D in RF. rewrite <- RF.
    unfold syn, synthesised. rewrite !get2_mk by lia. cbv zeta. f_equal. apply csumZ_ext. intros j Hj. now rewrite Tnth_map by lia. }
  (* perturbed coefficients *)
  pose proof (syn_diff L N J_min J mr P F l q ltac:(lia) HN EJ ltac:(lia) Hl Hq (fun j => vals3 (T j)) (vals2 Sc) (wc L N 2 mr P (vals2 flm)) (scaling_coefs L F (vals2 flm) Ls)) as SD.
  rewrite R in SD. fold US in SD.
  assert (SD2 : (US (fun j i => Cmod (get3 (vals3 (T j)) (2 * i) l (q - (L - Lj j)) - get3 (wc L N 2 mr P (vals2 flm) j) (2 * i) l (q - (L - Lj j)))%C)
     (Cmod (get2 (vals2 Sc) l (q - (L - Ls)) - get2 (scaling_coefs L F (vals2 flm) Ls) l (q - (L - Ls)))%C) <= e * X * D + c * US (fun _ _ => 1%R) 1)%R).
  { rewrite <- UD. unfold US. rewrite <- usum_lin. apply usum_le.
    - intros j i Hj Hb Hi. destruct (WCE j i Hj Hb Hi) as (I1 & I2 & I3 & I4). destruct (T_ok j Hj) as (D0 & D1 & D2 & _). rewrite get3_vals by lia.
      eapply Rle_trans; [apply (Tw_near j _ _ _ Hj I1 I2 I3)|]. fold P. rewrite I4. unfold t0, e, c. lra.
    - intros Hb. destruct (SCE Hb) as (I1 & I2 & I3). destruct S_ok as (D0 & D1 & _). rewrite get2_vals by lia.
      eapply Rle_trans; [apply (Sw_near _ _ I1 I2)|]. fold F. rewrite I3. unfold s0, e, c. lra. }
  (* moduli *)
  assert (AB : (Cmod (get2 (synthesised L J_min J (abs3 P) (abs1 F) (szf L N 2 mr) (fun j => abs3 (vals3 (T j))) Ls (abs2 (vals2 Sc))) l q) <= (1 + e) * X * D + c * US (fun _ _ => 1%R) 1)%R).
  { rewrite (syn_mod L N J_min J mr P F l q ltac:(lia) HN EJ ltac:(lia) Hl Hq Psh Phl _ _
      (fun j i => Cmod (cval (get3 (T j) (2 * i) l (q - (L - Lj j))))) (Cmod (cval (get2 Sc l (q - (L - Ls)))))).
    - rewrite Cmod_R, Rabs_pos_eq by (apply usum_pos; intros; apply Cmod_ge_0). fold US. rewrite <- UD. unfold US. rewrite <- usum_lin. apply usum_le.
      + intros j i Hj Hb Hi. destruct (WCE j i Hj Hb Hi) as (I1 & I2 & I3 & I4). 
        pose proof (add_up _ _ _ (Tw_near j _ _ _ Hj I1 I2 I3)) as A. fold P in A. rewrite I4 in A. fold e c in A. unfold t0 in *. eapply Rle_trans; [exact A|]. right. ring.
      + intros Hb. destruct (SCE Hb) as (I1 & I2 & I3). pose proof (add_up _ _ _ (Sw_near _ _ I1 I2)) as A. fold F in A. rewrite I3 in A. fold e c in A. unfold s0 in *. eapply Rle_trans; [exact A|]. right. ring.
    - intros j i Hj Hb Hi. destruct (WCE j i Hj Hb Hi) as (I1 & I2 & I3 & _). destruct (T_ok j Hj) as (D0 & D1 & D2 & _).
      unfold abs3. rewrite get3_mk by (cbn [vals3 dim0 dim1 dim2 mk3]; lia). rewrite get3_vals by lia. reflexivity.
    - intros Hb. destruct (SCE Hb) as (I1 & I2 & _). destruct S_ok as (D0 & D1 & _).
      unfold abs2. rewrite get2_mk by (cbn [vals2 rows cols mk2]; lia). rewrite get2_vals by lia. reflexivity. }
  set (k := (IZR kk * bpow radix2 (-52))%R) in *.
  assert (k2 : (0 <= k <= 2200 / 4503599627370496)%R).
  { unfold k. change (bpow radix2 (-52)) with (/ 4503599627370496)%R. assert (0 <= IZR kk <= 2200)%R by (split; apply IZR_le; lia). lra. }
  assert (e1 : e = (/ 562949953421312)%R) by reflexivity.
  assert (X0 : (0 <= X)%R) by apply Cmod_ge_0.
  assert (XD : (0 <= X * D <= 102 / 100 * X)%R) by (split; [apply Rmult_le_pos; lra|rewrite (Rmult_comm (102 / 100)); apply Rmult_le_compat_l; lra]).
  set (u := US (fun _ _ => 1%R) 1%R) in *. clearbody u US k e X. clear UD WCE SCE R.
  match type of G with (Cmod (?a - ?b)%C <= _)%R => match type of SD with (Cmod (?b' - ?z)%C <= _)%R => change b' with b in SD; replace (a - z)%C with ((a - b) + (b - z))%C by ring end end.
  eapply Rle_trans; [apply Cmod_triangle|].
  assert (dB : (0 <= d * B)%R) by (apply Rmult_le_pos; lra).
  assert (c1 : (0 <= c <= 19 * (d * B) + bpow radix2 (-1071))%R).
  { unfold c. pose proof dBW. pose proof (tiny (-1073) ltac:(lia)) as T3. split; [lra|]. unfold BW. change (-1071) with (2 + -1073). change (-1072) with (1 + -1073). rewrite !bpow_plus.
    change (bpow radix2 2) with 4%R. change (bpow radix2 1) with 2%R. set (z := bpow radix2 (-1073)) in *. assert (d * (2 * z) <= 1 * (2 * z))%R by (apply Rmult_le_compat_r; lra). lra. }
  assert (y0 : (0 <= y <= bpow radix2 40)%R).
  { unfold y. split; [apply sqrt_pos|]. rewrite <- (sqrt_pow2 (bpow radix2 40)) by apply bpow_ge_0. apply sqrt_le_1_alt. replace (bpow radix2 40 ^ 2)%R with (bpow radix2 80) by (cbn [pow]; rewrite Rmult_1_r, <- bpow_plus; reflexivity).
    change (bpow radix2 80) with (IZR (2 ^ 80)). apply IZR_le. apply Z.le_trans with (41 * 53 * (2 * 2 ^ 52 + 1)); [|vm_compute; discriminate].
    apply Z.mul_le_mono_nonneg; [nia| |lia|lia]. apply Z.mul_le_mono_nonneg; lia. }
  assert (cu : (c * u <= (19 * (d * B) + bpow radix2 (-1071)) * (y / 8 + 102 / 100))%R) by (apply Rmult_le_compat; lra).
  assert (cu0 : (0 <= c * u)%R) by (apply Rmult_le_pos; lra).
  assert (kcu : (k * (c * u) <= 2200 / 4503599627370496 * (c * u))%R) by (apply Rmult_le_compat_r; lra).
  assert (kx : (k * ((1 + e) * X * D) <= (2200 / 4503599627370496) * ((1 + e) * X * D))%R).
  { apply Rmult_le_compat_r; [|lra]. rewrite Rmult_assoc. apply Rmult_le_pos; [rewrite e1; lra|lra]. }
  assert (kAB : (k * Cmod (get2 (synthesised L J_min J (abs3 P) (abs1 F) (szf L N 2 mr) (fun j => abs3 (vals3 (T j))) Ls (abs2 (vals2 Sc))) l q) <= k * ((1 + e) * X * D) + k * (c * u))%R).
  { rewrite <- Rmult_plus_distr_l. apply Rmult_le_compat_l; lra. }
  replace ((1 + e) * X * D)%R with ((1 + e) * (X * D))%R in * by ring. replace (e * X * D)%R with (e * (X * D))%R in SD2 by ring.
  rewrite e1 in *. change (bpow radix2 (-40)) with (/ 1099511627776)%R.
  assert (DBY : (0 <= d * B * y)%R) by (apply Rmult_le_pos; lra).
  replace (d * B * (12 / 5 * y + 196 / 10))%R with (12 / 5 * (d * B * y) + 196 / 10 * (d * B))%R by field.
  assert (ty : (bpow radix2 (-1071) * y <= bpow radix2 (-1031))%R).
  { change (-1031) with (-1071 + 40). rewrite bpow_plus. apply Rmult_le_compat_l; [apply bpow_ge_0|lra]. }
  replace ((19 * (d * B) + bpow radix2 (-1071)) * (y / 8 + 102 / 100))%R with (19 / 8 * (d * B * y) + 19 * (102 / 100) * (d * B) + (/ 8 * (bpow radix2 (-1071) * y) + 102 / 100 * bpow radix2 (-1071)))%R in cu by field.
  assert (t1 : (bpow radix2 (-1031) = bpow radix2 (-1001) * / 1073741824)%R) by (change (/ 1073741824)%R with (bpow radix2 (-30)); rewrite <- bpow_plus; reflexivity).
  assert (t2 : (bpow radix2 (-1060) <= bpow radix2 (-1031))%R) by (apply bpow_le; lia).
  assert (t3 : (bpow radix2 (-1071) <= bpow radix2 (-1031))%R) by (apply bpow_le; lia).
  pose proof (tiny (-1001) ltac:(lia)) as t4. pose proof (tiny (-1071) ltac:(lia)) as t5.
  set (Q := (X * D)%R) in *. set (V := (d * B)%R) in *. set (V' := (V * y)%R) in *. set (cc := (c * u)%R) in *.
  unfold T in *. lra.
Qed.
End Entry.
End RT.
