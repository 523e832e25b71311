(** * The binary64 transforms against the exact ones *)

From Coq Require Import ZArith Reals List Bool Permutation Lia Lra Psatz.
From Coquelicot Require Import Rcomplements Complex.
From Flocq Require Import Core Relative IEEE754.BinarySingleNaN.
From Verif Require Import Py PyFacts ModelSamples SamplesFacts ModelFilters ModelTransforms FiltersFacts AxisymFacts DirectionFacts DirFilterFacts
  Spec SpecTransforms SpecQuad FiltersProps TransformsFacts BackendFacts LoopFacts ReconFacts RoundFacts SignalProps FrameProps.
From Verif Require Import ModelFloat ModelFloatDir ModelFloatTrans FloatProps SpecFp SpecFpDir SpecFpTrans FloatFilterProps FloatDefault FloatAccProps FloatDirFacts FloatDirProps
  FloatDirFilterProps FloatSpinProps FloatTransFacts FloatTransFilt FloatTransErr FloatTransCore FloatLoopFacts.
From Verif Require Import FloatFacts.
Import ListNotations.
Open Scope Z_scope.

Lemma get3_vals a i j k : 0 <= i < dim0 a -> 0 <= j < dim1 a -> 0 <= k < dim2 a -> get3 (vals3 a) i j k = cval (get3 a i j k).
Proof. intros. unfold vals3. now rewrite get3_mk by lia. Qed.
Lemma get2_vals a i j : 0 <= i < rows a -> 0 <= j < cols a -> get2 (vals2 a) i j = cval (get2 a i j).
Proof. intros. unfold vals2. now rewrite get2_mk by lia. Qed.
Lemma get1_vals a i : 0 <= i < len1 a -> get1 (vals1 a) i = B2R (get1 a i).
Proof. intros. unfold vals1. now rewrite get1_mk by lia. Qed.
Lemma sgn12 s : sign_of s = 1%R \/ sign_of s = (-1)%R. Proof. apply sgn_cases. Qed.
Lemma RtoC_m1 : RtoC (-1) = (- RtoC 1)%C.
Proof. rewrite <- RtoC_opp. reflexivity. Qed.
Lemma cm_sgl s X Y : cm (RtoC (sign_of s) * X)%C Y = (RtoC (sign_of s) * cm X Y)%C.
Proof.
  destruct (sgn12 s) as [-> | ->].
  - replace (RtoC 1 * X)%C with X by ring. ring.
  - replace (RtoC (-1) * X)%C with (- X)%C by (rewrite RtoC_m1; ring). rewrite cm_oppl, RtoC_m1. ring.
Qed.
Lemma cm_sgr s X Y : cm X (RtoC (sign_of s) * Y)%C = (RtoC (sign_of s) * cm X Y)%C.
Proof.
  destruct (sgn12 s) as [-> | ->].
  - replace (RtoC 1 * Y)%C with Y by ring. ring.
  - replace (RtoC (-1) * Y)%C with (- Y)%C by (rewrite RtoC_m1; ring). rewrite cm_oppr, RtoC_m1. ring.
Qed.
Lemma cm_nz X Y : cm X Y <> RtoC 0 -> X <> RtoC 0 /\ Y <> RtoC 0.
Proof. intros H. split; intros ->; apply H; [apply cm_0l|apply cm_0r]. Qed.
Lemma out2 {A} `{Zeroed A} n m (f : Z -> Z -> A) i j : ~ (0 <= i < n /\ 0 <= j < m) -> get2 (mk2 n m f) i j = zero.
Proof. simpl. destruct (inb n i) eqn:E1; cbn [andb]; [|auto]. destruct (inb m j) eqn:E2; [|auto]. rewrite inb_true in *. tauto. Qed.
Lemma cval0 : cval (creal (fint 0)) = RtoC 0. Proof. reflexivity. Qed.

(** the part of one scale as a list *)
Lemma wp_list L P j lj nj l0 T l q : 1 <= nj ->
  wavelet_part L P j lj nj l0 T l (q - (L - 1))
  = if inband L lj l0 l q then clist (map (fun i => Cmult (get3 P j l (L - nj + 2 * i)) (get3 T (2 * i) l (q - (L - lj)))) (zrange 0 nj)) else RtoC 0.
Proof.
  intros Hn. unfold wavelet_part, inband. destruct (_ && _ && _); [|reflexivity].
  rewrite (csumZ_step2 nj (fun n => Cmult (get3 T (nj - 1 + n) l (lj - 1 + (q - (L - 1)))) (get3 P j l (L - 1 + n)))) by exact Hn.
  rewrite clist_zrange, csumZ_zcsum, Z.sub_0_r. apply zcsum_ext. intros i Hi. rewrite Cmult_comm. f_equal; f_equal; lia.
Qed.
Lemma csumb_one z : finite64 z -> csumb 0 (Cmod (cval z)) (cval z) z.
Proof.
  intros [F1 F2]. exists (Rabs (B2R (fst z))), (Rabs (B2R (snd z))). split; [rewrite Cmod_abs; right; reflexivity|].
  split; now apply sumb_one.
Qed.
Lemma lsum_const c is : lsum (map (fun _ : Z => c) is) = (INR (length is) * c)%R.
Proof.
  induction is as [|i is IH]; [cbn; ring|]. cbn [map]. change (lsum (c :: map (fun _ => c) is)) with (c + lsum (map (fun _ => c) is))%R.
  rewrite IH. cbn [length]. rewrite S_INR. ring.
Qed.
Lemma lsum_lin a c (f : Z -> R) is : lsum (map (fun i => (a * f i + c)%R) is) = (a * lsum (map f is) + c * INR (length is))%R.
Proof.
  induction is as [|i is IH]; [cbn; ring|]. cbn [map length]. rewrite S_INR.
  change (lsum ((a * f i + c)%R :: map (fun i => (a * f i + c)%R) is)) with (a * f i + c + lsum (map (fun i => (a * f i + c)%R) is))%R.
  change (lsum (f i :: map f is)) with (f i + lsum (map f is))%R. rewrite IH. ring.
Qed.
Lemma clist_diff (f g : Z -> C) is : (Cmod (clist (map f is) - clist (map g is))%C <= lsum (map (fun i => Cmod (f i - g i)%C) is))%R.
Proof.
  induction is as [|i is IH]; [cbn; replace (RtoC 0 - RtoC 0)%C with (RtoC 0) by ring; rewrite Cmod_0; lra|]. cbn [map].
  change (clist (f i :: map f is)) with (f i + clist (map f is))%C. change (clist (g i :: map g is)) with (g i + clist (map g is))%C.
  change (lsum (Cmod (f i - g i)%C :: map (fun i => Cmod (f i - g i)%C) is)) with (Cmod (f i - g i)%C + lsum (map (fun i => Cmod (f i - g i)%C) is))%R.
  replace (f i + clist (map f is) - (g i + clist (map g is)))%C with ((f i - g i) + (clist (map f is) - clist (map g is)))%C by ring.
  eapply Rle_trans; [apply Cmod_triangle|]. lra.
Qed.

(** adding a list up, one element after the other *)
Lemma fold_add_err zs : forall a h M V, csumb h M V a -> (forall z, In z zs -> finite64 z) -> (gr (h + length zs) <= 2)%R -> (M + cabs zs <= bpow radix2 1003)%R ->
  csumb (h + length zs) (M + cabs zs) (V + clsum zs)%C (fold_left cadd zs a).
Proof.
  induction zs as [|z zs IH]; intros a h M V Ha HF Hg HM.
  - cbn [fold_left length]. rewrite Nat.add_0_r. change (cabs []) with 0%R. change (clsum []) with (RtoC 0). rewrite Rplus_0_r. replace (V + RtoC 0)%C with V by ring. exact Ha.
  - cbn [fold_left length] in *. change (cabs (z :: zs)) with (Cmod (cval z) + cabs zs)%R in *. change (clsum (z :: zs)) with (cval z + clsum zs)%C.
    pose proof (cabs_pos zs). replace (h + Datatypes.S (length zs))%nat with (Datatypes.S h + length zs)%nat in * by lia.
    rewrite <- Rplus_assoc in *. rewrite Cplus_assoc. apply IH; auto; [|intros w Hw; apply HF; now right].
    apply csumb_add; auto; [|eapply Rle_trans; [apply gr_le|exact Hg]; lia|lra].
    apply csumb_mono with 0%nat (Cmod (cval z)); [lia|lra|]. apply csumb_one. apply HF. now left.
Qed.
Lemma fold_filter (p : Z -> bool) (t : Z -> c64) (is : list Z) : forall a : c64, fold_left (fun a i => if p i then cadd a (t i) else a) is a = fold_left cadd (map t (filter p is)) a.
Proof. induction is as [|i is IH]; intros a; [reflexivity|]. cbn [fold_left filter]. destruct (p i); cbn [map fold_left]; apply IH. Qed.
Lemma fold_flat (f : Z -> list c64) (step : c64 -> Z -> c64) js : (forall a j, In j js -> step a j = fold_left cadd (f j) a) ->
  forall a, fold_left step js a = fold_left cadd (flat_map f js) a.
Proof.
  induction js as [|j js IH]; intros H a; [reflexivity|]. cbn [fold_left flat_map]. rewrite fold_left_app, H by (now left). apply IH. intros. apply H. now right.
Qed.
Lemma cabs_app a b : cabs (a ++ b) = (cabs a + cabs b)%R.
Proof. unfold cabs. rewrite map_app. apply lsum_app. Qed.
Lemma clsum_app a b : clsum (a ++ b) = (clsum a + clsum b)%C.
Proof.
  induction a as [|z a IH]; [cbn [app]; change (clsum []) with (RtoC 0); ring|]. cbn [app].
  change (clsum (z :: a ++ b)) with (cval z + clsum (a ++ b))%C. change (clsum (z :: a)) with (cval z + clsum a)%C. rewrite IH. ring.
Qed.
Lemma cabs_flat (f : Z -> list c64) js : cabs (flat_map f js) = lsum (map (fun j => cabs (f j)) js).
Proof. induction js as [|j js IH]; [reflexivity|]. cbn [flat_map map]. rewrite cabs_app, IH. reflexivity. Qed.
Lemma clsum_flat (f : Z -> list c64) js : clsum (flat_map f js) = clist (map (fun j => clsum (f j)) js).
Proof. induction js as [|j js IH]; [reflexivity|]. cbn [flat_map map]. rewrite clsum_app, IH. reflexivity. Qed.
Lemma clist_filter (p : Z -> bool) f is : (forall i, In i is -> p i = false -> f i = RtoC 0) -> clist (map f (filter p is)) = clist (map f is).
Proof.
  induction is as [|i is IH]; intros H; [reflexivity|]. cbn [filter]. assert (IH' := IH (fun k Hk => H k (or_intror Hk))).
  destruct (p i) eqn:E; cbn [map]; [change (clist (f i :: map f (filter p is))) with (f i + clist (map f (filter p is)))%C|]; change (clist (f i :: map f is)) with (f i + clist (map f is))%C; rewrite IH'; [reflexivity|].
  rewrite (H i (or_introl eq_refl) E). ring.
Qed.
Lemma lsum_filter (p : Z -> bool) f is : (forall i, In i is -> (0 <= f i)%R) -> (lsum (map f (filter p is)) <= lsum (map f is))%R.
Proof.
  induction is as [|i is IH]; intros H; [cbn; lra|]. cbn [filter]. assert (IH' := IH (fun k Hk => H k (or_intror Hk))). pose proof (H i (or_introl eq_refl)).
  destruct (p i) eqn:E; cbn [map]; [change (lsum (f i :: map f (filter p is))) with (f i + lsum (map f (filter p is)))%R|]; change (lsum (f i :: map f is)) with (f i + lsum (map f is))%R; lra.
Qed.
Lemma filter_none (p : Z -> bool) is : (forall i, In i is -> p i = false) -> filter p is = [].
Proof. induction is as [|i is IH]; intros H; [reflexivity|]. cbn [filter]. rewrite (H i (or_introl eq_refl)). apply IH. intros. apply H. now right. Qed.
Lemma filter_len (p : Z -> bool) is : (length (filter p is) <= length is)%nat.
Proof. induction is as [|i is IH]; [cbn; lia|]. cbn [filter]. destruct (p i); cbn [length]; lia. Qed.
Lemma flat_len (f : Z -> list c64) k js : (forall j, In j js -> (length (f j) <= k)%nat) -> (length (flat_map f js) <= k * length js)%nat.
Proof.
  induction js as [|j js IH]; intros H; [cbn; lia|]. cbn [flat_map length]. rewrite app_length. pose proof (H j (or_introl eq_refl)). specialize (IH (fun i Hi => H i (or_intror Hi))). nia.
Qed.
Lemma fmul_sym x y : fmul x y = fmul y x.
Proof.
  unfold fmul. destruct x as [a|a| |a m e H], y as [b|b| |b m' e' H']; try reflexivity; try (cbn; now rewrite xorb_comm).
  apply B2SF_inj. cbn [Bmult]. rewrite !B2SF_SF2B. now rewrite xorb_comm, Pos.mul_comm, Z.add_comm.
Qed.

Section G.
Variables (L N J_min J spin : Z) (mr : bool) (psi : arr3 c64) (phi : arr1 f64).
Hypothesis HL : 1 <= L <= 2 ^ 52.
Hypothesis HN : 1 <= N <= L.
Hypothesis HN' : N <= 41.
Hypothesis HJ : J <= 52.
Hypothesis HF : filt L N J_min J spin 2 (vals3 psi) (vals1 phi).
Hypothesis Hpsi : forall j l n, J_min <= j <= J -> 0 <= l < L -> Z.abs n < L -> let z := get3 psi j l (L - 1 + n) in
  finite64 z /\ exists v, cval z = Cmult (nu N) (RtoC v) /\ fsize (w8 l) v.
Hypothesis Hphi : forall l, 0 <= l < L -> is_finite (get1 phi l) = true /\ fsize (w4 l * w4 l) (B2R (get1 phi l)).

Notation Lj j := (Lj_of L j 2 mr).
Notation Nj j := (Nj_of L j N 2 mr).
Notation L0 j := (L0_of j 2 mr).
Notation Ls := (Ls_of L J_min 2 mr).
Notation wvj psi flm j := (wav64 L (Lj j) (Nj j) (L0 j) j psi flm).

Lemma two1 : (1 < 2)%R. Proof. lra. Qed.
Lemma Hsz j : J_min <= j <= J -> 0 <= L0 j <= Lj j /\ 1 <= Lj j <= L /\ 1 <= Nj j <= N /\ Nj j <= Lj j + 1.
Proof. intros Hj. pose proof (f_range _ _ _ _ _ _ _ _ HF). apply (sizes L N J_min J spin 2 mr (vals3 psi) (vals1 phi)); auto using two1; lia. Qed.
Lemma HLs : 1 <= Ls <= L.
Proof. apply (Ls_range L J_min 2 mr); [lia|lra]. Qed.
Lemma dims : dim0 psi = J + 1 /\ dim1 psi = L /\ dim2 psi = 2 * L - 1 /\ len1 phi = L /\ 0 <= J_min < J.
Proof. pose proof (f_psi _ _ _ _ _ _ _ _ HF) as (A & B & C). pose proof (f_phi _ _ _ _ _ _ _ _ HF). pose proof (f_range _ _ _ _ _ _ _ _ HF). auto. Qed.
Lemma psi_get j l n : J_min <= j <= J -> 0 <= l < L -> Z.abs n < L -> get3 (vals3 psi) j l (L - 1 + n) = cval (get3 psi j l (L - 1 + n)).
Proof. intros. destruct dims as (A & B & C & _ & D). apply get3_vals; lia. Qed.
Lemma phi_get l : 0 <= l < L -> get1 (vals1 phi) l = B2R (get1 phi l).
Proof. intros. destruct dims as (_ & _ & _ & D & _). apply get1_vals. lia. Qed.

(** ** analysis *)
Lemma wav_near flm j : J_min <= j <= J -> rows flm = L -> cols flm = 2 * L - 1 -> numbers2 (bpow radix2 900) flm ->
  near3 (bpow radix2 (-49)) (bpow radix2 (-1073)) (wvj psi flm j) (wc L N 2 mr (vals3 psi) (vals2 flm) j).
Proof.
  intros Hj R C HB. destruct (Hsz j Hj) as (Z1 & Z2 & Z3 & Z4). unfold near3, wav64, wc, wavelet_coefs. cbn [dim0 dim1 dim2 mk3].
  repeat (split; [reflexivity|]). intros a l b Ha Hl Hb. rewrite !get3_mk by lia. cbv zeta.
  replace (a - (Nj j - 1) - (Nj j - 1)) with (a - 2 * (Nj j - 1)) by lia.
  rewrite Z.even_sub, Z.even_mul. cbn [orb Z.even]. replace (Bool.eqb (Z.even a) true) with (Z.even a) by now destruct (Z.even a).
  destruct (Z.even a && (L0 j <=? l)).
  - replace (L - 1 + (b - (Lj j - 1))) with (L - Lj j + b) by lia. replace (L - Nj j + a) with (L - 1 + (a - (Nj j - 1))) by lia.
    rewrite psi_get by lia. rewrite get2_vals by lia. destruct (Hpsi j l (a - (Nj j - 1)) Hj ltac:(lia) ltac:(lia)) as (Fz & v & Vz & Hv).
    destruct (HB l (L - Lj j + b)) as [Ff Bf]; try lia.
    destruct (wav_entry N l v _ _ ltac:(lia) Fz Vz Hv Ff Bf) as (F & _ & E). split; [exact F|exact E].
  - split; [now split|]. rewrite cval0. replace (RtoC 0 - RtoC 0)%C with (RtoC 0) by ring. rewrite Cmod_0. pose proof (bpow_ge_0 radix2 (-1073)). lra.
Qed.
Lemma sca_near flm : rows flm = L -> cols flm = 2 * L - 1 -> numbers2 (bpow radix2 900) flm ->
  near2 (bpow radix2 (-49)) (bpow radix2 (-1073)) (sca64 L phi flm Ls) (scaling_coefs L (vals1 phi) (vals2 flm) Ls).
Proof.
  intros R C HB. pose proof HLs. unfold near2, sca64, scaling_coefs. cbn [rows cols mk2]. repeat (split; [reflexivity|]).
  intros l b Hl Hb. rewrite !get2_mk by lia. cbv zeta. replace (L - 1 + (b - (Ls - 1))) with (L - Ls + b) by lia.
  rewrite phi_get, get2_vals by lia. destruct (Hphi l ltac:(lia)) as [Fx Hx]. destruct (HB l (L - Ls + b)) as [Ff Bf]; try lia.
  destruct (sca_entry l (get1 phi l) _ ltac:(lia) Fx Hx Ff Bf) as (F & _ & E & _). split; [exact F|]. fold (w4 l).
  eapply Rle_trans; [exact E|].
  assert (Et : (4 * eta = bpow radix2 (-1073))%R) by (unfold eta; change 4%R with (bpow radix2 2); rewrite <- bpow_plus; reflexivity).
  assert (Eb : (bpow radix2 (-49) = 16 * eps)%R) by (change (bpow radix2 (-49)) with (/ 562949953421312)%R; unfold eps; lra).
  rewrite Et, Eb. apply Rplus_le_compat_r, Rmult_le_compat_r; [apply Cmod_ge_0|]. pose proof eps_pos. lra.
Qed.
Lemma wav_val flm j a l b : J_min <= j <= J -> rows flm = L -> cols flm = 2 * L - 1 -> numbers2 (bpow radix2 900) flm ->
  0 <= a < 2 * Nj j - 1 -> 0 <= l < Lj j -> 0 <= b < 2 * Lj j - 1 ->
  get3 (vals3 (wvj psi flm j)) a l b
  = if Z.even a && (L0 j <=? l) then cm (get2 (vals2 flm) l (L - 1 + (b - (Lj j - 1)))) (cm (Cconj (get3 (vals3 psi) j l (L - 1 + (a - (Nj j - 1))))) (RtoC (B2R (w8f l)))) else RtoC 0.
Proof.
  intros Hj R C HB Ha Hl Hb. destruct (Hsz j Hj) as (Z1 & Z2 & Z3 & Z4). rewrite get3_vals by (cbn [wav64 dim0 dim1 dim2 mk3]; lia).
  unfold wav64. rewrite get3_mk by lia. destruct (Z.even a && (L0 j <=? l)); [|reflexivity].
  replace (L - 1 + (b - (Lj j - 1))) with (L - Lj j + b) by lia. replace (L - Nj j + a) with (L - 1 + (a - (Nj j - 1))) by lia.
  rewrite psi_get by lia. rewrite get2_vals by lia. destruct (Hpsi j l (a - (Nj j - 1)) Hj ltac:(lia) ltac:(lia)) as (Fz & v & Vz & Hv).
  destruct (HB l (L - Lj j + b)) as [Ff Bf]; try lia.
  destruct (wav_entry N l v _ _ ltac:(lia) Fz Vz Hv Ff Bf) as (_ & E & _). exact E.
Qed.
Lemma wav_is flm j reality : J_min <= j <= J -> numbers2 (bpow radix2 900) flm -> is_harmonic L spin reality (vals2 flm) ->
  is_wigner (Lj j) (Nj j) (L0 j) reality (vals3 (wvj psi flm j)).
Proof.
  intros Hj HB ((R & C & F) & Hr). change (rows flm = L) in R. change (cols flm = 2 * L - 1) in C.
  destruct (Hsz j Hj) as (Z1 & Z2 & Z3 & Z4). pose proof (f_range _ _ _ _ _ _ _ _ HF) as HR.
  assert (OUT : forall a l b, ~ (0 <= a < 2 * Nj j - 1 /\ 0 <= l < Lj j /\ 0 <= b < 2 * Lj j - 1) -> get3 (vals3 (wvj psi flm j)) a l b = RtoC 0).
  { intros a l b Hx. unfold vals3. apply out3. exact Hx. }
  split.
  - unfold wigner. split; [reflexivity|]. split; [reflexivity|]. split; [reflexivity|]. intros n l m Hnz.
    assert (B : 0 <= Nj j - 1 + n < 2 * Nj j - 1 /\ 0 <= l < Lj j /\ 0 <= Lj j - 1 + m < 2 * Lj j - 1).
    { destruct (Z_lt_le_dec (Z.abs n) (Nj j)) as [H1|H1]; [|exfalso; apply Hnz, OUT; lia].
      destruct (Z_lt_le_dec (Z.abs m) (Lj j)) as [H2|H2]; [|exfalso; apply Hnz, OUT; lia].
      destruct (Z_lt_le_dec l 0) as [H3|H3]; [exfalso; apply Hnz, OUT; lia|].
      destruct (Z_lt_le_dec l (Lj j)) as [H4|H4]; [lia|exfalso; apply Hnz, OUT; lia]. }
    rewrite wav_val in Hnz by (auto; lia). destruct (Z.even _); cbn [andb] in Hnz; [|congruence]. destruct (Z.leb_spec (L0 j) l); [|congruence].
    replace (Lj j - 1 + m - (Lj j - 1)) with m in Hnz by lia. replace (Nj j - 1 + n - (Nj j - 1)) with n in Hnz by lia.
    apply cm_nz in Hnz as [Hf Hp]. apply cm_nz in Hp as [Hp _]. apply Cconj_nz in Hp. apply F in Hf.
    apply (f_psi_supp _ _ _ _ _ _ _ _ HF mr) in Hp; lia.
  - intros Hre n l m. specialize (Hr Hre).
    destruct (Z_lt_le_dec (Z.abs n) (Nj j)) as [H1|H1]; [|rewrite !OUT by lia; rewrite Cconj_0; ring].
    destruct (Z_lt_le_dec (Z.abs m) (Lj j)) as [H2|H2]; [|rewrite !OUT by lia; rewrite Cconj_0; ring].
    destruct (Z_lt_le_dec l 0) as [H3|H3]; [rewrite !OUT by lia; rewrite Cconj_0; ring|].
    destruct (Z_lt_le_dec l (Lj j)) as [H4|H4]; [|rewrite !OUT by lia; rewrite Cconj_0; ring].
    rewrite !wav_val by (auto; lia).
    replace (Nj j - 1 - n - (Nj j - 1)) with (- n) by lia. replace (Nj j - 1 + n - (Nj j - 1)) with n by lia.
    replace (Lj j - 1 - m - (Lj j - 1)) with (- m) by lia. replace (Lj j - 1 + m - (Lj j - 1)) with m by lia.
    replace (Z.even (Nj j - 1 - n)) with (Z.even (Nj j - 1 + n)) by (rewrite !Z.even_sub, !Z.even_add, Z.even_sub; reflexivity).
    destruct (_ && _); [|rewrite Cconj_0; ring].
    replace (L - 1 + - m) with (L - 1 - m) by lia. replace (L - 1 + - n) with (L - 1 - n) by lia.
    rewrite Hr, (f_conj _ _ _ _ _ _ _ _ HF) by lia. rewrite sign_plus, RtoC_mult.
    rewrite Cmult_conj, Cconj_RtoC, !cm_sgl, cm_sgr. rewrite <- cm_conj, <- cm_conj, Cconj_RtoC. ring.
Qed.
Lemma sca_val flm l b : rows flm = L -> cols flm = 2 * L - 1 -> numbers2 (bpow radix2 900) flm -> 0 <= l < Ls -> 0 <= b < 2 * Ls - 1 ->
  get2 (vals2 (sca64 L phi flm Ls)) l b = cm (get2 (vals2 flm) l (L - 1 + (b - (Ls - 1)))) (RtoC (B2R (fmul (get1 phi l) (w4f l)))).
Proof.
  intros R C HB Hl Hb. pose proof HLs. rewrite get2_vals by (cbn [sca64 rows cols mk2]; lia). unfold sca64. rewrite get2_mk by lia.
  replace (L - 1 + (b - (Ls - 1))) with (L - Ls + b) by lia. rewrite get2_vals by lia. destruct (Hphi l ltac:(lia)) as [Fx Hx].
  destruct (HB l (L - Ls + b)) as [Ff Bf]; try lia. destruct (sca_entry l (get1 phi l) _ ltac:(lia) Fx Hx Ff Bf) as (_ & E & _). exact E.
Qed.
Lemma sca_is flm reality : numbers2 (bpow radix2 900) flm -> is_harmonic L spin reality (vals2 flm) ->
  is_harmonic Ls spin reality (vals2 (sca64 L phi flm Ls)).
Proof.
  intros HB ((R & C & F) & Hr). change (rows flm = L) in R. change (cols flm = 2 * L - 1) in C. pose proof HLs as HS.
  assert (OUT : forall l b, ~ (0 <= l < Ls /\ 0 <= b < 2 * Ls - 1) -> get2 (vals2 (sca64 L phi flm Ls)) l b = RtoC 0).
  { intros l b Hx. unfold vals2. apply out2. exact Hx. }
  split.
  - split; [reflexivity|]. split; [reflexivity|]. intros l m Hnz.
    assert (B : 0 <= l < Ls /\ 0 <= Ls - 1 + m < 2 * Ls - 1).
    { destruct (Z_lt_le_dec (Z.abs m) Ls) as [H2|H2]; [|exfalso; apply Hnz, OUT; lia].
      destruct (Z_lt_le_dec l 0) as [H3|H3]; [exfalso; apply Hnz, OUT; lia|].
      destruct (Z_lt_le_dec l Ls) as [H4|H4]; [lia|exfalso; apply Hnz, OUT; lia]. }
    rewrite sca_val in Hnz by (auto; lia). replace (Ls - 1 + m - (Ls - 1)) with m in Hnz by lia. apply cm_nz in Hnz as [Hf _]. apply F in Hf. lia.
  - intros Hre l m. specialize (Hr Hre).
    destruct (Z_lt_le_dec (Z.abs m) Ls) as [H2|H2]; [|rewrite !OUT by lia; rewrite Cconj_0; ring].
    destruct (Z_lt_le_dec l 0) as [H3|H3]; [rewrite !OUT by lia; rewrite Cconj_0; ring|].
    destruct (Z_lt_le_dec l Ls) as [H4|H4]; [|rewrite !OUT by lia; rewrite Cconj_0; ring].
    rewrite !sca_val by (auto; lia). replace (Ls - 1 - m - (Ls - 1)) with (- m) by lia. replace (Ls - 1 + m - (Ls - 1)) with m by lia.
    replace (L - 1 + - m) with (L - 1 - m) by lia. rewrite Hr, cm_sgl. rewrite <- cm_conj, Cconj_RtoC. reflexivity.
Qed.

(** ** synthesis *)
Section Syn.
Variables (fsum : Z -> Z -> list f64 -> f64) (Ts : list (arr3 c64)) (Sc : arr2 c64) (l q : Z).
Hypothesis Hfs : summation fsum.
Hypothesis HT : forall j, J_min <= j <= J -> let T := Tnth nd30 J_min Ts j in
  dim0 T = 2 * Nj j - 1 /\ dim1 T = Lj j /\ dim2 T = 2 * Lj j - 1 /\ numbers3 (bpow radix2 900) T.
Hypothesis HS : rows Sc = Ls /\ cols Sc = 2 * Ls - 1 /\ numbers2 (bpow radix2 900) Sc.
Hypothesis Hl : 0 <= l < L.
Hypothesis Hq : 0 <= q < 2 * L - 1.

Let T j := Tnth nd30 J_min Ts j.
Let x j i := get3 psi j l (L - Nj j + 2 * i).
Let y j i := get3 (T j) (2 * i) l (q - (L - Lj j)).
Let b j := inband L (Lj j) (L0 j) l q.
Let tl j := map (fun i => cmul (x j i) (y j i)) (zrange 0 (Nj j)).
Let js := zrange J_min (J + 1).
Let A j := lsum (map (fun i => (Cmod (cval (x j i)) * Cmod (cval (y j i)))%R) (zrange 0 (Nj j))).
Let E j := clist (map (fun i => Cmult (cval (x j i)) (cval (y j i))) (zrange 0 (Nj j))).
Let bs := (l <? Ls) && (Z.abs (q - (L - 1)) <? Ls).
Let es := cmul (get2 Sc l (q - (L - Ls))) (creal (fmul (get1 phi l) (w4f l))).
Let Es := Cmult (cval (get2 Sc l (q - (L - Ls)))) (RtoC (w4 l * B2R (get1 phi l))).
Let At := (lsum (map (fun j => if b j then A j else 0%R) js))%R.
Let As := (if bs then Cmod Es else 0)%R.

Lemma xy_ok j i : J_min <= j <= J -> b j = true -> 0 <= i < Nj j ->
  finite64 (x j i) /\ finite64 (y j i) /\ (Cmod (cval (x j i)) * Cmod (cval (y j i)) <= bpow radix2 930)%R /\
  cval (x j i) = get3 (vals3 psi) j l (L - Nj j + 2 * i) /\ cval (y j i) = get3 (vals3 (T j)) (2 * i) l (q - (L - Lj j)).
Proof.
  intros Hj Hb Hi. destruct (Hsz j Hj) as (Z1 & Z2 & Z3 & Z4). unfold b, inband in Hb. apply andb_prop in Hb as [Hb B3]. apply andb_prop in Hb as [B1 B2].
  apply Z.leb_le in B1. apply Z.ltb_lt in B2, B3. destruct (HT j Hj) as (D0 & D1 & D2 & HB). fold (T j) in D0, D1, D2, HB.
  destruct (HB (2 * i) l (q - (L - Lj j))) as [Fy By]; try lia.
  pose proof (Hpsi j l (- Nj j + 1 + 2 * i) Hj Hl ltac:(lia)) as HP. cbv zeta in HP. replace (L - 1 + (- Nj j + 1 + 2 * i)) with (L - Nj j + 2 * i) in HP by lia.
  destruct HP as (Fx & v & Vx & Hv). unfold x, y. split; [exact Fx|]. split; [exact Fy|].
  destruct (fsize_le l v ltac:(lia) Hv) as [U _]. destruct Hv as (V0 & _).
  split; [rewrite (cmod_psi N v _ V0 Vx); change 930 with (30 + 900); rewrite bpow_plus; apply Rmult_le_compat; auto; apply Cmod_ge_0|].
  split; [|rewrite get3_vals by lia; reflexivity].
  replace (L - Nj j + 2 * i) with (L - 1 + (- Nj j + 1 + 2 * i)) by lia. now rewrite psi_get by lia.
Qed.
Lemma scale_err j : J_min <= j <= J -> b j = true ->
  (forall z, In z (tl j) -> finite64 z) /\ (length (tl j) <= Z.to_nat N)%nat /\
  (Cmod (clsum (tl j) - E j)%C <= 3 * eps * A j + 4 * eta * IZR N)%R /\
  (cabs (tl j) <= (1 + 3 * eps) * A j + 4 * eta * IZR N)%R /\ (0 <= A j <= IZR N * bpow radix2 930)%R.
Proof.
  intros Hj Hb. destruct (Hsz j Hj) as (Z1 & Z2 & Z3 & Z4). pose proof eta_pos.
  assert (K : forall i, In i (zrange 0 (Nj j)) -> finite64 (x j i) /\ finite64 (y j i) /\ (Cmod (cval (x j i)) * Cmod (cval (y j i)) <= bpow radix2 1000)%R).
  { intros i Hi. apply In_zrange in Hi. destruct (xy_ok j i Hj Hb Hi) as (F1 & F2 & B & _). split; [exact F1|]. split; [exact F2|].
    eapply Rle_trans; [exact B|]. apply bpow_le. lia. }
  destruct (prods_err (x j) (y j) (zrange 0 (Nj j)) K) as (P1 & P2 & P3). fold (tl j) in P1, P2, P3. fold (A j) in P2, P3. fold (E j) in P2.
  assert (LN : (INR (length (zrange 0 (Nj j))) <= IZR N)%R).
  { rewrite zrange_length. rewrite INR_IZR_INZ. apply IZR_le. lia. }
  assert (L4 : (4 * eta * INR (length (zrange 0 (Nj j))) <= 4 * eta * IZR N)%R) by (apply Rmult_le_compat_l; lra).
  split; [exact P1|]. split; [unfold tl; rewrite map_length, zrange_length; lia|]. split; [lra|]. split; [lra|].
  split; [apply lsum_map_pos; intros; apply Rmult_le_pos; apply Cmod_ge_0|].
  apply Rle_trans with (lsum (map (fun _ => bpow radix2 930) (zrange 0 (Nj j)))).
  - apply lsum_map_le. intros i Hi. apply In_zrange in Hi. now destruct (xy_ok j i Hj Hb Hi) as (_ & _ & B & _).
  - rewrite lsum_const. apply Rmult_le_compat_r; [apply bpow_ge_0|exact LN].
Qed.
Lemma syn_exact : get2 (synthesised L J_min J (vals3 psi) (vals1 phi) (szf L N 2 mr) (fun j => vals3 (T j)) Ls (vals2 Sc)) l q
  = (clist (map (fun j => if b j then E j else RtoC 0) js) + (if bs then Es else RtoC 0))%C.
Proof.
  unfold synthesised. rewrite get2_mk by lia. cbv zeta. f_equal.
  - unfold js. rewrite clist_zrange. apply csumZ_ext. intros j Hj. unfold szf. destruct (Hsz j ltac:(lia)) as (Z1 & Z2 & Z3 & Z4).
    rewrite wp_list by lia. fold (b j). destruct (b j) eqn:Hb; [|reflexivity]. unfold E. f_equal. apply map_ext_in. intros i Hi. apply In_zrange in Hi.
    destruct (xy_ok j i ltac:(lia) Hb Hi) as (_ & _ & _ & -> & ->). reflexivity.
  - unfold scaling_part. fold bs. destruct bs eqn:Hb; [|reflexivity]. unfold bs in Hb. apply andb_prop in Hb as [B1 B2]. apply Z.ltb_lt in B1, B2.
    destruct HS as (S1 & S2 & _). unfold Es. rewrite get2_vals by lia. rewrite phi_get by exact Hl. fold (w4 l). do 3 f_equal. lia.
Qed.
Lemma syn_abs : get2 (synthesised L J_min J (abs3 (vals3 psi)) (abs1 (vals1 phi)) (szf L N 2 mr) (fun j => abs3 (vals3 (T j))) Ls (abs2 (vals2 Sc))) l q
  = RtoC (At + As).
Proof.
  destruct dims as (D0 & D1 & D2 & D3 & D4).
  unfold synthesised. rewrite get2_mk by lia. cbv zeta. rewrite RtoC_plus. f_equal.
  - unfold At. rewrite lsum_RtoC. unfold js. rewrite clist_zrange. apply csumZ_ext. intros j Hj. unfold szf. destruct (Hsz j ltac:(lia)) as (Z1 & Z2 & Z3 & Z4).
    rewrite wp_list by lia. fold (b j). destruct (b j) eqn:Hb; [|reflexivity]. unfold A. rewrite lsum_RtoC. f_equal. apply map_ext_in. intros i Hi. apply In_zrange in Hi.
    destruct (xy_ok j i ltac:(lia) Hb Hi) as (_ & _ & _ & -> & ->).
    unfold b, inband in Hb. apply andb_prop in Hb as [Hb B3]. apply andb_prop in Hb as [B1 B2]. apply Z.leb_le in B1. apply Z.ltb_lt in B2, B3.
    destruct (HT j ltac:(lia)) as (E0 & E1 & E2 & _). fold (T j) in E0, E1, E2.
    unfold abs3. rewrite !get3_mk by (cbn [vals3 dim0 dim1 dim2 mk3]; lia). now rewrite RtoC_mult.
  - unfold scaling_part, As. fold bs. destruct bs eqn:Hb; [|reflexivity]. unfold bs in Hb. apply andb_prop in Hb as [B1 B2]. apply Z.ltb_lt in B1, B2.
    destruct HS as (S1 & S2 & _). unfold Es, abs2, abs1. rewrite get2_mk by (cbn [vals2 rows cols mk2]; lia). rewrite get1_mk by (cbn [vals1 len1 mk1]; lia).
    rewrite get2_vals by lia. rewrite phi_get by exact Hl. fold (w4 l). rewrite Cmod_mult, Cmod_R, Rabs_mult, (Rabs_pos_eq (w4 l)) by (unfold w4; apply sqrt_pos).
    rewrite <- RtoC_mult. do 5 f_equal. lia.
Qed.
Let K := (IZR N * IZR (J + 1))%R.
Let Xv := (clist (map (fun j => if b j then E j else RtoC 0) js) + (if bs then Es else RtoC 0))%C.
Let zeros := (forall j i, J_min <= j <= J -> b j = true -> 0 <= i < Nj j -> cval (x j i) = RtoC 0 \/ cval (y j i) = RtoC 0) /\
   (bs = true -> cval (get2 Sc l (q - (L - Ls))) = RtoC 0 \/ B2R (get1 phi l) = 0%R).
Lemma sc_ok : bs = true -> finite64 es /\ (Cmod (cval es - Es)%C <= 11 * eps * As + 4 * eta)%R /\ (Cmod (cval es) <= (1 + 11 * eps) * As + 4 * eta)%R /\ (As <= bpow radix2 902)%R /\
     (cval (get2 Sc l (q - (L - Ls))) = RtoC 0 \/ B2R (get1 phi l) = 0%R -> cval es = RtoC 0).
Proof.
  pose proof eps_pos as He. pose proof eta_pos as Ht. intros Hb. assert (EA : As = Cmod Es) by (unfold As; now rewrite Hb). unfold bs in Hb. apply andb_prop in Hb as [B1 B2]. apply Z.ltb_lt in B1, B2.
    destruct HS as (S1 & S2 & S3). destruct (S3 l (q - (L - Ls))) as [Ff Bf]; try lia. destruct (Hphi l Hl) as [Fx Hx].
    destruct (sca_entry l (get1 phi l) _ ltac:(lia) Fx Hx Ff Bf) as (F & V & D & Z0). fold es in F, V, D. fold Es in D. rewrite EA. split; [exact F|]. split; [exact D|]. split.
    - replace (cval es) with ((cval es - Es) + Es)%C by ring. eapply Rle_trans; [apply Cmod_triangle|]. lra.
    - split.
      + unfold Es. rewrite Cmod_mult, Cmod_R. destruct Hx as (V0 & _ & V2). change 902 with (900 + 2). rewrite bpow_plus. apply Rmult_le_compat; auto using Cmod_ge_0, Rabs_pos.
        change (bpow radix2 2) with 4%R. assert (W0 : (0 <= w4 l)%R) by (unfold w4; apply sqrt_pos). rewrite Rabs_pos_eq by (apply Rmult_le_pos; auto).
        apply Rsqr_incr_0_var; [|lra]. unfold Rsqr. nra.
      + intros [Z|Z]; rewrite V; [rewrite Z; apply cm_0l|rewrite (Z0 Z); apply cm_0r].
Qed.
Lemma K_rng : (0 <= K <= 2173)%R /\ (1 <= IZR N <= 41)%R /\ (INR (length js) <= IZR (J + 1))%R.
Proof.
  destruct dims as (D0 & D1 & D2 & D3 & D4).
  assert (N41 : (1 <= IZR N <= 41)%R) by (split; apply IZR_le; lia). assert (J53 : (1 <= IZR (J + 1) <= 53)%R) by (split; apply IZR_le; lia).
  split; [unfold K; split; nra|]. split; [exact N41|]. unfold js. rewrite zrange_length, INR_IZR_INZ. apply IZR_le. lia.
Qed.
Lemma A_rng : (0 <= At <= bpow radix2 942)%R /\ (0 <= As <= bpow radix2 902)%R.
Proof.
  destruct K_rng as (K0 & N41 & LJ). assert (SEJ : forall j, In j js -> J_min <= j <= J) by (intros j Hj; apply In_zrange in Hj; lia).
  split; split.
  - apply lsum_map_pos. intros j Hj. destruct (b j) eqn:Hb; [|lra]. now apply (scale_err j (SEJ j Hj) Hb).
  - apply Rle_trans with (lsum (map (fun _ => IZR N * bpow radix2 930)%R js)).
    + apply lsum_map_le. intros j Hj. destruct (b j) eqn:Hb; [now apply (scale_err j (SEJ j Hj) Hb)|]. apply Rmult_le_pos; [lra|apply bpow_ge_0].
    + rewrite lsum_const. change 942 with (12 + 930). rewrite bpow_plus. rewrite <- Rmult_assoc. apply Rmult_le_compat_r; [apply bpow_ge_0|].
      change (bpow radix2 12) with 4096%R. apply Rle_trans with K; [|lra]. unfold K. rewrite Rmult_comm. apply Rmult_le_compat_l; lra.
  - unfold As; destruct bs; [apply Cmod_ge_0|lra].
  - destruct (bool_dec bs true) as [Hb|Hb]; [now apply sc_ok|apply not_true_is_false in Hb; unfold As; rewrite Hb; apply bpow_ge_0].
Qed.
Lemma Ke_le : (4 * eta * K <= / 100)%R.
Proof.
  destruct K_rng as (K0 & _). pose proof eta_pos. apply Rle_trans with (4 * / 1000000 * 2173)%R; [apply Rmult_le_compat; lra|lra].
Qed.

(** every way of adding the terms up *)
Lemma finish H g M' V' : (INR H <= 2200)%R -> csumb H M' V' g ->
  (M' <= (1 + 3 * eps) * At + 4 * eta * K + ((1 + 11 * eps) * As + 4 * eta))%R ->
  (Cmod (V' - Xv)%C <= (3 * eps * At + 4 * eta * K) + (11 * eps * As + 4 * eta))%R ->
  (zeros -> M' = 0%R /\ V' = RtoC 0) ->
  finite64 g /\
  (Cmod (cval g - Xv)%C <= (INR H + 7) * bpow radix2 (-52) * (At + As) + bpow radix2 (-1060))%R /\
  (zeros -> cval g = RtoC 0).
Proof.
  intros H22 C1 C2 C3 C4. pose proof eps_pos as He. pose proof eta_pos as Ht. destruct K_rng as (K0 & N41 & LJ). destruct A_rng as [[At0 At1] [As0 As1]].
  assert (Hh : (INR H * eps <= / 2)%R) by (pose proof (pos_INR H); apply Rle_trans with (2200 * / 1000000)%R; [apply Rmult_le_compat; lra|lra]).
  pose proof (gr_bound H Hh) as G1.
  destruct (csumb_err _ _ _ _ C1) as [Fg Dg]. split; [exact Fg|]. split.
  - replace (cval g - Xv)%C with ((cval g - V') + (V' - Xv))%C by ring. eapply Rle_trans; [apply Cmod_triangle|].
    set (B := (At + As)%R).
    assert (M3 : (M' <= B + 11 * eps * B + 4 * eta * (K + 1))%R).
    { unfold B. assert (0 <= eps * At)%R by (apply Rmult_le_pos; lra). lra. }
    assert (C3' : (Cmod (V' - Xv)%C <= 11 * eps * B + 4 * eta * (K + 1))%R).
    { eapply Rle_trans; [exact C3|]. unfold B. assert (0 <= eps * At)%R by (apply Rmult_le_pos; lra). lra. }
    assert (B0 : (0 <= B)%R) by (unfold B; lra). pose proof (gr_ge1 H) as GH.
    assert (D2' : ((gr H - 1) * M' <= 2 * (INR H * eps) * (B + 11 * eps * B + 4 * eta * (K + 1)))%R).
    { assert (0 <= M')%R. { destruct C1 as (SS & TT & CC & _). eapply Rle_trans; [apply Cmod_ge_0|exact CC]. } apply Rmult_le_compat; lra. }
    assert (Eb : (bpow radix2 (-52) = 2 * eps)%R) by (change (bpow radix2 (-52)) with (/ 4503599627370496)%R; unfold eps; lra).
    rewrite Eb.
    assert (Z1 : (2 * (INR H * eps) * (B + 11 * eps * B + 4 * eta * (K + 1)) = 2 * INR H * (eps * B) + 22 * (INR H * eps) * (eps * B) + 2 * (INR H * eps) * (4 * eta * (K + 1)))%R) by ring.
    rewrite Z1 in D2'. assert (EB : (0 <= eps * B)%R) by (apply Rmult_le_pos; lra).
    assert (Z2 : (22 * (INR H * eps) * (eps * B) <= 22 * (2200 * / 1000000) * (eps * B))%R).
    { apply Rmult_le_compat_r; [exact EB|]. apply Rmult_le_compat_l; [lra|]. apply Rmult_le_compat; try lra. apply pos_INR. }
    assert (EK : (0 <= 4 * eta * (K + 1))%R) by (apply Rmult_le_pos; lra).
    assert (Z3 : (2 * (INR H * eps) * (4 * eta * (K + 1)) <= 1 * (4 * eta * (K + 1)))%R) by (apply Rmult_le_compat_r; lra).
    assert (Z4 : (8 * eta * (K + 1) <= bpow radix2 (-1060))%R).
    { change (-1060) with (15 + -1075). rewrite bpow_plus. fold eta. change (bpow radix2 15) with 32768%R. 
      apply Rle_trans with (8 * eta * 2174)%R; [apply Rmult_le_compat_l; lra|lra]. }
    replace ((INR H + 7) * (2 * eps) * B)%R with (2 * INR H * (eps * B) + 14 * (eps * B))%R by ring.
    replace (11 * eps * B)%R with (11 * (eps * B))%R in C3' by ring. lra.
  - intros HZ. destruct (C4 HZ) as [M0 V00]. rewrite M0, V00, Rmult_0_r in Dg. replace (cval g - RtoC 0)%C with (cval g) in Dg by ring. apply Cmod_eq_0. pose proof (Cmod_ge_0 (cval g)). lra.
Qed.
Lemma zero_list : zeros -> forall j t, (forall z, In z t -> exists i, J_min <= j <= J /\ b j = true /\ 0 <= i < Nj j /\ (z = cmul (x j i) (y j i) \/ z = cmul (y j i) (x j i))) ->
  cabs t = 0%R /\ clsum t = RtoC 0.
Proof.
  intros [HZ1 _] j t Ht.
  assert (Q : forall z, In z t -> cval z = RtoC 0).
  { intros z Hz. destruct (Ht z Hz) as (i & Hj & Hb & Hi & Ez). destruct (xy_ok j i Hj Hb Hi) as (F1 & F2 & B & _).
    assert (B' : (Cmod (cval (x j i)) * Cmod (cval (y j i)) <= bpow radix2 1000)%R) by (eapply Rle_trans; [exact B|apply bpow_le; lia]).
    destruct Ez as [-> | ->].
    - destruct (cmul_val (x j i) (y j i) F1 F2 B') as (_ & W & _). rewrite W. destruct (HZ1 j i Hj Hb Hi) as [Z|Z]; rewrite Z; [apply cm_0l|apply cm_0r].
    - rewrite Rmult_comm in B'. destruct (cmul_val (y j i) (x j i) F2 F1 B') as (_ & W & _). rewrite W. destruct (HZ1 j i Hj Hb Hi) as [Z|Z]; rewrite Z; [apply cm_0r|apply cm_0l]. }
  clear Ht. induction t as [|z t IH]; [split; reflexivity|].
  destruct (IH (fun w Hw => Q w (or_intror Hw))) as [I1 I2]. change (cabs (z :: t)) with (Cmod (cval z) + cabs t)%R. change (clsum (z :: t)) with (cval z + clsum t)%C.
  rewrite I1, I2, (Q z (or_introl eq_refl)), Cmod_0. split; ring.
Qed.
Lemma clist_zero (u : list Z) : clist (map (fun _ => RtoC 0) u) = RtoC 0.
Proof. induction u as [|j r IH]; [reflexivity|]. cbn [map]. change (clist (RtoC 0 :: map (fun _ => RtoC 0) r)) with (RtoC 0 + clist (map (fun _ => RtoC 0) r))%C. rewrite IH. ring. Qed.
Lemma syn_near : let g := get2 (syn64 fsum L J_min J (fun j => Lj j) (fun j => Nj j) (fun j => L0 j) Ls psi phi Ts Sc) l q in
  finite64 g /\
  (Cmod (cval g - get2 (synthesised L J_min J (vals3 psi) (vals1 phi) (szf L N 2 mr) (fun j => vals3 (T j)) Ls (vals2 Sc)) l q)%C
   <= IZR (N + J + 8) * bpow radix2 (-52) *
      Cmod (get2 (synthesised L J_min J (abs3 (vals3 psi)) (abs1 (vals1 phi)) (szf L N 2 mr) (fun j => abs3 (vals3 (T j))) Ls (abs2 (vals2 Sc))) l q) + bpow radix2 (-1060))%R /\
  ((forall j i, J_min <= j <= J -> b j = true -> 0 <= i < Nj j -> cval (x j i) = RtoC 0 \/ cval (y j i) = RtoC 0) ->
   (bs = true -> cval (get2 Sc l (q - (L - Ls))) = RtoC 0 \/ B2R (get1 phi l) = 0%R) -> cval g = RtoC 0).
Proof.
  intros g. rewrite syn_exact, syn_abs. destruct dims as (D0 & D1 & D2 & D3 & D4). pose proof eps_pos as He. pose proof eta_pos as Ht.
  destruct K_rng as (K0 & N41 & LJ). destruct A_rng as [[At0 At1] [As0 As1]]. pose proof sc_ok as SE. pose proof Ke_le as Ke.
  set (M := lsum (map (fun j => if b j then cabs (tl j) else 0%R) js)).
  assert (SEJ : forall j, In j js -> J_min <= j <= J) by (intros j Hj; apply In_zrange in Hj; lia).
  assert (LK : (4 * eta * IZR N * INR (length js) <= 4 * eta * K)%R).
  { unfold K. rewrite <- Rmult_assoc. apply Rmult_le_compat_l; [|exact LJ]. apply Rmult_le_pos; lra. }
  assert (M1 : (M <= (1 + 3 * eps) * At + 4 * eta * K)%R).
  { apply Rle_trans with (lsum (map (fun j => ((1 + 3 * eps) * (if b j then A j else 0) + 4 * eta * IZR N)%R) js)).
    - apply lsum_map_le. intros j Hj. destruct (b j) eqn:Hb.
      + now apply (scale_err j (SEJ j Hj) Hb).
      + rewrite Rmult_0_r, Rplus_0_l. apply Rmult_le_pos; lra.
    - rewrite (lsum_lin (1 + 3 * eps) (4 * eta * IZR N) (fun j => if b j then A j else 0%R)). fold At. lra. }
  assert (V1 : (Cmod (clist (map (fun j => if b j then clsum (tl j) else RtoC 0) js) - clist (map (fun j => if b j then E j else RtoC 0) js))%C <= 3 * eps * At + 4 * eta * K)%R).
  { eapply Rle_trans; [apply clist_diff|]. apply Rle_trans with (lsum (map (fun j => (3 * eps * (if b j then A j else 0) + 4 * eta * IZR N)%R) js)).
    - apply lsum_map_le. intros j Hj. destruct (b j) eqn:Hb.
      + now apply (scale_err j (SEJ j Hj) Hb).
      + replace (RtoC 0 - RtoC 0)%C with (RtoC 0) by ring. rewrite Cmod_0, Rmult_0_r, Rplus_0_l. apply Rmult_le_pos; lra.
    - rewrite (lsum_lin (3 * eps) (4 * eta * IZR N) (fun j => if b j then A j else 0%R)). fold At. lra. }
  assert (B1003 : (bpow radix2 942 * 4 <= bpow radix2 1003)%R) by (change 4%R with (bpow radix2 2); rewrite <- bpow_plus; apply bpow_le; lia).
  assert (B942 : (bpow radix2 902 <= bpow radix2 942)%R) by (apply bpow_le; lia).
  assert (B1 : (1 <= bpow radix2 942)%R) by (change 1%R with (bpow radix2 0); apply bpow_le; lia).
  assert (M2 : (M <= 2 * bpow radix2 942)%R).
  { assert (3 * eps * At <= / 10 * bpow radix2 942)%R by (apply Rmult_le_compat; lra). lra. }
  set (h0 := Nat.pred (Z.to_nat N)). set (H := Z.to_nat (N + J + 1)).
  assert (HI : INR H = IZR (N + J + 1)) by (unfold H; rewrite INR_IZR_INZ, Z2Nat.id by lia; reflexivity).
  assert (H95 : (INR H <= 94)%R) by (rewrite HI; apply IZR_le; lia).
  assert (Hh : (INR H * eps <= / 2)%R) by (pose proof (pos_INR H); apply Rle_trans with (94 * / 1000000)%R; [apply Rmult_le_compat; lra|lra]).
  pose proof (gr_bound H Hh) as G1. assert (G2 : (gr H <= 2)%R) by lra.
  assert (LH : (Datatypes.S (h0 + length js) <= H)%nat) by (unfold h0, H, js; rewrite zrange_length; lia).
  pose proof (fold_err tl (fun j => fsum (l - L0 j) (q - (L - Lj j))) b js (creal (fint 0)) h0 0 (RtoC 0)) as FE.
  lapply FE; [clear FE; intros FE|apply csumb_mono with 0%nat 0%R; [lia|lra|apply csumb_0]].
  lapply FE; [clear FE; intros FE|intros j z Hj Hb; now apply (scale_err j (SEJ j Hj) Hb)].
  lapply FE; [clear FE; intros FE|intros j Hj Hb; destruct (scale_err j (SEJ j Hj) Hb) as (_ & X & _); unfold h0; lia].
  lapply FE; [clear FE; intros FE|intros j xs; apply Hfs].
  lapply FE; [clear FE; intros FE|eapply Rle_trans; [apply gr_le, LH|exact G2]].
  fold M in FE. lapply FE; [clear FE; intros FE|rewrite Rplus_0_l; lra]. rewrite Rplus_0_l, Cplus_0_l in FE.
  set (V := clist (map (fun j => if b j then clsum (tl j) else RtoC 0) js)) in *.
  assert (CS : exists M' V', csumb H M' V' g /\ (M' <= M + ((1 + 11 * eps) * As + 4 * eta))%R /\
     (Cmod (V' - (clist (map (fun j => if b j then E j else RtoC 0) js) + (if bs then Es else RtoC 0)))%C <= (3 * eps * At + 4 * eta * K) + (11 * eps * As + 4 * eta))%R /\
     ((bs = true -> cval (get2 Sc l (q - (L - Ls))) = RtoC 0 \/ B2R (get1 phi l) = 0%R) -> M' = M /\ V' = V)).
  { unfold g, syn64. rewrite get2_mk by lia. unfold sstep64. fold bs. unfold step64, terms64. fold es.
    change (fold_left _ (zrange J_min (J + 1)) (creal (fint 0))) with
      (fold_left (fun a j => if b j then cadd a (csum64 (fsum (l - L0 j) (q - (L - Lj j))) (tl j)) else a) js (creal (fint 0))).
    destruct bs eqn:Hb.
    - destruct (SE eq_refl) as (F & D & C2 & _ & Z0). exists (M + Cmod (cval es))%R, (V + cval es)%C. split; [|split; [lra|split]].
      + apply csumb_mono with (Datatypes.S (h0 + length js)) (M + Cmod (cval es))%R; [exact LH|lra|]. apply csumb_add; auto.
        * apply csumb_mono with 0%nat (Cmod (cval es)); [lia|lra|]. now apply csumb_one.
        * eapply Rle_trans; [apply gr_le|exact G2]. lia.
        * assert (11 * eps * As <= / 10 * bpow radix2 942)%R by (apply Rmult_le_compat; lra). lra.
      + replace (V + cval es - (clist (map (fun j => if b j then E j else RtoC 0) js) + Es))%C with ((V - clist (map (fun j => if b j then E j else RtoC 0) js)) + (cval es - Es))%C by ring.
        eapply Rle_trans; [apply Cmod_triangle|]. lra.
      + intros HZ. rewrite (Z0 (HZ eq_refl)), Cmod_0. split; [ring|ring].
    - exists M, V. split; [apply csumb_mono with (h0 + length js)%nat M; [lia|lra|exact FE]|].
      assert (P : (0 <= 11 * eps * As)%R) by (apply Rmult_le_pos; lra).
      split; [lra|]. split; [|intros; split; reflexivity]. replace (V - (clist (map (fun j => if b j then E j else RtoC 0) js) + RtoC 0))%C with (V - clist (map (fun j => if b j then E j else RtoC 0) js))%C by ring.
      lra. }
  destruct CS as (M' & V' & C1 & C2 & C3 & C4).
  rewrite Cmod_R, Rabs_pos_eq by lra. replace (IZR (N + J + 8)) with (INR H + 7)%R by (rewrite HI, <- plus_IZR; f_equal; lia).
  fold Xv in C3 |- *. destruct (finish H g M' V') as (P1 & P2 & P3); auto; try lra.
  - intros HZ. destruct (C4 (proj2 HZ)) as [-> ->].
    assert (TZ : forall j, In j js -> b j = true -> cabs (tl j) = 0%R /\ clsum (tl j) = RtoC 0).
    { intros j Hj Hb. apply (zero_list HZ j). intros z Hz. apply in_map_iff in Hz as (i & <- & Hi). apply In_zrange in Hi. exists i. split; [now apply SEJ|]. auto. }
    split.
    + unfold M. rewrite (map_ext_in _ (fun _ => 0%R)). { rewrite lsum_const. ring. } intros j Hj. destruct (b j) eqn:Hb; [|reflexivity]. now apply TZ.
    + unfold V. rewrite (map_ext_in _ (fun _ => RtoC 0)); [|intros j Hj; destruct (b j) eqn:Hb; [now apply TZ|reflexivity]]. apply clist_zero.
  - split; [exact P1|]. split; [exact P2|]. intros HZ1 HZ2. apply P3. split; assumption.
Qed.

(** the looped transform adds the terms of all the scales to one accumulator *)
Section Loop.
Variable reality : bool.
Hypothesis Hre : reality = true -> L - 1 <= q.
Hypothesis HWg : forall j, J_min <= j <= J -> wigner (Lj j) (Nj j) (L0 j) (vals3 (T j)).
Hypothesis HHr : harmonic Ls spin (vals2 Sc).
Let m := q - (L - 1).
Let bl j := (Z.abs m <=? l) && (l <? Lj j).
Let bi j i := Z.max (Z.max (Z.abs spin) (Z.abs (- Nj j + 1 + i * 2))) (L0 j) <=? l.
Let tj j := map (fun i => cmul (y j i) (x j i)) (filter (bi j) (zrange 0 (Nj j))).
Let fj j := if bl j then tj j else [].

Lemma loop_flat : fold_left (fun a j => lstep64 L spin psi j (Lj j) (Nj j) (L0 j) (T j) l m a) js (creal (fint 0)) = fold_left cadd (flat_map fj js) (creal (fint 0)).
Proof.
  apply fold_flat. intros a j Hj. unfold lstep64, fj. fold (bl j). destruct (bl j); [|reflexivity]. unfold tj. rewrite <- fold_filter.
  assert (E1 : forall i, Nj j - 1 + (- Nj j + 1 + i * 2) = 2 * i) by (intros; lia). assert (E2 : Lj j - 1 + m = q - (L - Lj j)) by (unfold m; lia).
  assert (E3 : forall i, L - 1 + (- Nj j + 1 + i * 2) = L - Nj j + 2 * i) by (intros; lia).
  rewrite E2. revert a. induction (zrange 0 (Nj j)) as [|i is IH]; intros a; [reflexivity|]. cbn [fold_left]. rewrite E1, E3. fold (bi j i) (x j i) (y j i). apply IH.
Qed.
(** the terms left out vanish *)
Lemma left_out j i : J_min <= j <= J -> b j = true -> 0 <= i < Nj j -> bl j = false \/ bi j i = false -> cval (x j i) = RtoC 0 \/ cval (y j i) = RtoC 0.
Proof.
  intros Hj Hb Hi Ho. destruct (xy_ok j i Hj Hb Hi) as (_ & _ & _ & Ex & Ey). destruct (Hsz j Hj) as (Z1 & Z2 & Z3 & Z4).
  unfold b, inband in Hb. apply andb_prop in Hb as [Hb B3]. apply andb_prop in Hb as [B1 B2]. apply Z.leb_le in B1. apply Z.ltb_lt in B2, B3.
  destruct (Z_lt_le_dec l (Z.abs spin)) as [Hs|Hs].
  - left. rewrite Ex. destruct (Ceq0_dec (get3 (vals3 psi) j l (L - Nj j + 2 * i))) as [Z|Hne]; [exact Z|exfalso].
    replace (L - Nj j + 2 * i) with (L - 1 + (- Nj j + 1 + 2 * i)) in Hne by lia. destruct dims as (_ & _ & _ & _ & HJm).
    apply (f_psi_supp _ _ _ _ _ _ _ _ HF mr) in Hne; lia.
  - right. rewrite Ey. destruct (Ceq0_dec (get3 (vals3 (T j)) (2 * i) l (q - (L - Lj j)))) as [Z|Hne]; [exact Z|exfalso].
    destruct (HWg j Hj) as (_ & _ & _ & W). specialize (W (2 * i - (Nj j - 1)) l (q - (L - 1))).
    replace (Nj j - 1 + (2 * i - (Nj j - 1))) with (2 * i) in W by lia. replace (Lj j - 1 + (q - (L - 1))) with (q - (L - Lj j)) in W by lia.
    apply W in Hne. destruct Ho as [Ho|Ho].
    + unfold bl, m in Ho. apply andb_false_iff in Ho as [Ho|Ho]; [apply Z.leb_gt in Ho|apply Z.ltb_ge in Ho]; lia.
    + unfold bi in Ho. apply Z.leb_gt in Ho. lia.
Qed.
Lemma scale_errl j : J_min <= j <= J ->
  (forall z, In z (fj j) -> exists i, J_min <= j <= J /\ b j = true /\ 0 <= i < Nj j /\ (z = cmul (x j i) (y j i) \/ z = cmul (y j i) (x j i))) /\
  (forall z, In z (fj j) -> finite64 z) /\ (length (fj j) <= Z.to_nat N)%nat /\
  (Cmod (clsum (fj j) - (if b j then E j else RtoC 0))%C <= 3 * eps * (if b j then A j else 0) + 4 * eta * IZR N)%R /\
  (cabs (fj j) <= (1 + 3 * eps) * (if b j then A j else 0) + 4 * eta * IZR N)%R.
Proof.
  intros Hj. destruct (Hsz j Hj) as (Z1 & Z2 & Z3 & Z4). pose proof eps_pos as He. pose proof eta_pos as Ht. destruct K_rng as (_ & N41 & _).
  assert (EN : (0 <= 4 * eta * IZR N)%R) by (apply Rmult_le_pos; lra).
  assert (A0 : (0 <= (if b j then A j else 0))%R).
  { destruct (b j) eqn:Hb; [|lra]. apply lsum_map_pos; intros; apply Rmult_le_pos; apply Cmod_ge_0. }
  assert (EA : (0 <= eps * (if b j then A j else 0))%R) by (apply Rmult_le_pos; lra).
  destruct (bl j) eqn:Hbl.
  - destruct (b j) eqn:Hb.
    + unfold fj. rewrite Hbl. set (is := filter (bi j) (zrange 0 (Nj j))).
      assert (K0 : forall i, In i is -> 0 <= i < Nj j) by (intros i Hi; apply filter_In in Hi as [Hi _]; now apply In_zrange in Hi).
      assert (KK : forall i, In i is -> finite64 (y j i) /\ finite64 (x j i) /\ (Cmod (cval (y j i)) * Cmod (cval (x j i)) <= bpow radix2 1000)%R).
      { intros i Hi. destruct (xy_ok j i Hj Hb (K0 i Hi)) as (F1 & F2 & B & _). split; [exact F2|]. split; [exact F1|].
        rewrite Rmult_comm. eapply Rle_trans; [exact B|]. apply bpow_le. lia. }
      destruct (prods_err (y j) (x j) is KK) as (P1 & P2 & P3). fold (tj j) in P1, P2, P3.
      set (A' := lsum (map (fun i => (Cmod (cval (y j i)) * Cmod (cval (x j i)))%R) is)) in *.
      assert (AA : (0 <= A' <= A j)%R).
      { split; [apply lsum_map_pos; intros; apply Rmult_le_pos; apply Cmod_ge_0|]. unfold A', A, is.
        eapply Rle_trans; [apply (lsum_filter (bi j) (fun i => (Cmod (cval (y j i)) * Cmod (cval (x j i)))%R)); intros; apply Rmult_le_pos; apply Cmod_ge_0|].
        right. f_equal. apply map_ext. intros i. ring. }
      assert (EE : clist (map (fun i => Cmult (cval (y j i)) (cval (x j i))) is) = E j).
      { unfold is. rewrite clist_filter.
        - unfold E. f_equal. apply map_ext. intros i. ring.
        - intros i Hi Ho. apply In_zrange in Hi. destruct (left_out j i Hj Hb Hi (or_intror Ho)) as [-> | ->]; ring. }
      rewrite EE in P2. pose proof (filter_len (bi j) (zrange 0 (Nj j))) as FL. fold is in FL. rewrite zrange_length in FL.
      assert (LN : (INR (length is) <= IZR N)%R) by (rewrite INR_IZR_INZ; apply IZR_le; lia).
      assert (L4 : (4 * eta * INR (length is) <= 4 * eta * IZR N)%R) by (apply Rmult_le_compat_l; lra).
      assert (X1 : (eps * A' <= eps * A j)%R) by (apply Rmult_le_compat_l; lra).
      split; [|split; [exact P1|split; [unfold tj; rewrite map_length; fold is; lia|split; [eapply Rle_trans; [exact P2|lra]|eapply Rle_trans; [exact P3|lra]]]]].
      intros z Hz. unfold tj in Hz. apply in_map_iff in Hz as (i & <- & Hi). exists i. fold is in Hi. specialize (K0 i Hi). auto.
    + assert (F0 : fj j = []).
      { unfold fj. rewrite Hbl. unfold tj. rewrite (filter_none (bi j)); [reflexivity|]. intros i Hi. unfold bi.
        apply Z.leb_gt. unfold bl, m in Hbl. apply andb_prop in Hbl as [B1 B2]. apply Z.leb_le in B1. apply Z.ltb_lt in B2.
          unfold b, inband in Hb. apply andb_false_iff in Hb as [Hb|Hb]; [apply andb_false_iff in Hb as [Hb|Hb]|]; [apply Z.leb_gt in Hb|apply Z.ltb_ge in Hb|apply Z.ltb_ge in Hb]; lia. }
      rewrite F0. split; [intros z []|]. split; [intros z []|]. split; [cbn; lia|]. change (clsum []) with (RtoC 0). change (cabs []) with 0%R.
      replace (RtoC 0 - RtoC 0)%C with (RtoC 0) by ring. rewrite Cmod_0. lra.
  - assert (F0 : fj j = []) by (unfold fj; now rewrite Hbl). rewrite F0. split; [intros z []|]. split; [intros z []|]. split; [cbn; lia|]. change (clsum []) with (RtoC 0). change (cabs []) with 0%R.
    split; [|lra]. destruct (b j) eqn:Hb; [|replace (RtoC 0 - RtoC 0)%C with (RtoC 0) by ring; rewrite Cmod_0; lra].
    assert (EE : E j = RtoC 0).
    { unfold E. rewrite (map_ext_in _ (fun _ => RtoC 0)); [apply clist_zero|]. intros i Hi. apply In_zrange in Hi. destruct (left_out j i Hj Hb Hi (or_introl Hbl)) as [-> | ->]; ring. }
    rewrite EE. replace (RtoC 0 - RtoC 0)%C with (RtoC 0) by ring. rewrite Cmod_0. lra.
Qed.
Lemma synl_near : let g := get2 (synl64 L J_min J (fun j => Lj j) (fun j => Nj j) (fun j => L0 j) Ls spin psi phi reality Ts Sc) l q in
  finite64 g /\
  (Cmod (cval g - get2 (synthesised L J_min J (vals3 psi) (vals1 phi) (szf L N 2 mr) (fun j => vals3 (T j)) Ls (vals2 Sc)) l q)%C
   <= IZR (N * (J + 1) + 8) * bpow radix2 (-52) *
      Cmod (get2 (synthesised L J_min J (abs3 (vals3 psi)) (abs1 (vals1 phi)) (szf L N 2 mr) (fun j => abs3 (vals3 (T j))) Ls (abs2 (vals2 Sc))) l q) + bpow radix2 (-1060))%R /\
  ((forall j i, J_min <= j <= J -> b j = true -> 0 <= i < Nj j -> cval (x j i) = RtoC 0 \/ cval (y j i) = RtoC 0) ->
   (bs = true -> cval (get2 Sc l (q - (L - Ls))) = RtoC 0 \/ B2R (get1 phi l) = 0%R) -> cval g = RtoC 0).
Proof.
  intros g. rewrite syn_exact, syn_abs. destruct dims as (D0 & D1 & D2 & D3 & D4). pose proof eps_pos as He. pose proof eta_pos as Ht.
  destruct K_rng as (K0 & N41 & LJ). destruct A_rng as [[At0 At1] [As0 As1]]. pose proof sc_ok as SE. pose proof Ke_le as Ke.
  assert (SEJ : forall j, In j js -> J_min <= j <= J) by (intros j Hj; apply In_zrange in Hj; lia).
  assert (LK : (4 * eta * IZR N * INR (length js) <= 4 * eta * K)%R).
  { unfold K. rewrite <- Rmult_assoc. apply Rmult_le_compat_l; [|exact LJ]. apply Rmult_le_pos; lra. }
  set (TL := flat_map fj js). set (M := cabs TL). set (V := clsum TL).
  assert (M1 : (M <= (1 + 3 * eps) * At + 4 * eta * K)%R).
  { unfold M, TL. rewrite cabs_flat. apply Rle_trans with (lsum (map (fun j => ((1 + 3 * eps) * (if b j then A j else 0) + 4 * eta * IZR N)%R) js)).
    - apply lsum_map_le. intros j Hj. now apply (scale_errl j (SEJ j Hj)).
    - rewrite (lsum_lin (1 + 3 * eps) (4 * eta * IZR N) (fun j => if b j then A j else 0%R)). fold At. lra. }
  assert (V1 : (Cmod (V - clist (map (fun j => if b j then E j else RtoC 0) js))%C <= 3 * eps * At + 4 * eta * K)%R).
  { unfold V, TL. rewrite clsum_flat. eapply Rle_trans; [apply clist_diff|]. apply Rle_trans with (lsum (map (fun j => (3 * eps * (if b j then A j else 0) + 4 * eta * IZR N)%R) js)).
    - apply lsum_map_le. intros j Hj. now apply (scale_errl j (SEJ j Hj)).
    - rewrite (lsum_lin (3 * eps) (4 * eta * IZR N) (fun j => if b j then A j else 0%R)). fold At. lra. }
  assert (B1003 : (bpow radix2 942 * 4 <= bpow radix2 1003)%R) by (change 4%R with (bpow radix2 2); rewrite <- bpow_plus; apply bpow_le; lia).
  assert (B942 : (bpow radix2 902 <= bpow radix2 942)%R) by (apply bpow_le; lia).
  assert (B1 : (1 <= bpow radix2 942)%R) by (change 1%R with (bpow radix2 0); apply bpow_le; lia).
  assert (M2 : (M <= 2 * bpow radix2 942)%R).
  { assert (3 * eps * At <= / 10 * bpow radix2 942)%R by (apply Rmult_le_compat; lra). lra. }
  set (H := Z.to_nat (N * (J + 1) + 1)).
  assert (HI : INR H = IZR (N * (J + 1) + 1)) by (unfold H; rewrite INR_IZR_INZ, Z2Nat.id by nia; reflexivity).
  assert (H22 : (INR H <= 2200)%R) by (rewrite HI; apply IZR_le; nia).
  assert (Hh : (INR H * eps <= / 2)%R) by (pose proof (pos_INR H); apply Rle_trans with (2200 * / 1000000)%R; [apply Rmult_le_compat; lra|lra]).
  pose proof (gr_bound H Hh) as G1. assert (G2 : (gr H <= 2)%R) by lra.
  assert (LH : (Datatypes.S (length TL) <= H)%nat).
  { assert (X : (length TL <= Z.to_nat N * length js)%nat) by (apply flat_len; intros j Hj; now apply (scale_errl j (SEJ j Hj))).
    unfold js in X. rewrite zrange_length in X. unfold H. assert (Z.of_nat (length TL) <= N * (J + 1)); [|lia].
    apply Z.le_trans with (Z.of_nat (Z.to_nat N * Z.to_nat (J + 1 - J_min))); [lia|]. rewrite Nat2Z.inj_mul, !Z2Nat.id by lia. nia. }
  assert (FE : csumb (length TL) M V (fold_left cadd TL (creal (fint 0)))).
  { replace M with (0 + M)%R by ring. replace V with (RtoC 0 + V)%C by ring. change (length TL) with (0 + length TL)%nat. apply fold_add_err.
    - apply csumb_0.
    - intros z Hz. apply in_flat_map in Hz as (j & Hj & Hz). exact (proj1 (proj2 (scale_errl j (SEJ j Hj))) z Hz).
    - eapply Rle_trans; [apply gr_le|exact G2]. lia.
    - fold M. lra. }
  assert (Gg : g = if (Z.abs spin <=? l) && (l <? Ls) && (Z.abs m <=? l) then cadd (fold_left cadd TL (creal (fint 0))) es else fold_left cadd TL (creal (fint 0))).
  { unfold g, synl64. rewrite get2_mk by lia. unfold sy_fin64. fold m. unfold TL. rewrite <- loop_flat. fold js. destruct ((Z.abs spin <=? l) && (l <? Ls) && (Z.abs m <=? l)); [|reflexivity].
    replace (reality && (m <? 0)) with false; [|symmetry; destruct reality; [cbn [andb]; apply Z.ltb_ge; specialize (Hre eq_refl); unfold m; lia|reflexivity]].
    unfold es, pval64. rewrite (fmul_sym _ (get1 phi l)). do 3 f_equal. unfold m. lia. }
  assert (CS : exists M' V', csumb H M' V' g /\ (M' <= M + ((1 + 11 * eps) * As + 4 * eta))%R /\
     (Cmod (V' - (clist (map (fun j => if b j then E j else RtoC 0) js) + (if bs then Es else RtoC 0)))%C <= (3 * eps * At + 4 * eta * K) + (11 * eps * As + 4 * eta))%R /\
     ((bs = true -> cval (get2 Sc l (q - (L - Ls))) = RtoC 0 \/ B2R (get1 phi l) = 0%R) -> M' = M /\ V' = V)).
  { rewrite Gg. assert (P : (0 <= 11 * eps * As)%R) by (apply Rmult_le_pos; lra).
    destruct ((Z.abs spin <=? l) && (l <? Ls) && (Z.abs m <=? l)) eqn:Hc.
    - assert (Hb : bs = true).
      { apply andb_prop in Hc as [Hc C3]. apply andb_prop in Hc as [C1 C2]. apply Z.leb_le in C1, C3. apply Z.ltb_lt in C2. unfold bs. fold m. zb. }
      rewrite Hb. destruct (SE Hb) as (F & D & C2 & _ & Z0). exists (M + Cmod (cval es))%R, (V + cval es)%C. split; [|split; [lra|split]].
      + apply csumb_mono with (Datatypes.S (length TL)) (M + Cmod (cval es))%R; [exact LH|lra|]. apply csumb_add; auto.
        * apply csumb_mono with 0%nat (Cmod (cval es)); [lia|lra|]. now apply csumb_one.
        * eapply Rle_trans; [apply gr_le|exact G2]. lia.
        * assert (11 * eps * As <= / 10 * bpow radix2 942)%R by (apply Rmult_le_compat; lra). lra.
      + replace (V + cval es - (clist (map (fun j => if b j then E j else RtoC 0) js) + Es))%C with ((V - clist (map (fun j => if b j then E j else RtoC 0) js)) + (cval es - Es))%C by ring.
        eapply Rle_trans; [apply Cmod_triangle|]. lra.
      + intros HZ. rewrite (Z0 (HZ eq_refl)), Cmod_0. split; [ring|ring].
    - exists M, V. split; [apply csumb_mono with (length TL) M; [lia|lra|exact FE]|].
      split; [lra|]. split; [|intros; split; reflexivity].
      assert (EZ : (if bs then Es else RtoC 0) = RtoC 0).
      { destruct bs eqn:Hb; [|reflexivity]. unfold bs in Hb. apply andb_prop in Hb as [B2 B3]. apply Z.ltb_lt in B2, B3. destruct HS as (S1 & S2 & _).
        unfold Es. rewrite <- get2_vals by lia. destruct (Ceq0_dec (get2 (vals2 Sc) l (q - (L - Ls)))) as [-> |Hne]; [ring|exfalso].
        destruct HHr as (_ & _ & W). specialize (W l m). replace (Ls - 1 + m) with (q - (L - Ls)) in W by (unfold m; lia). apply W in Hne.
        apply andb_false_iff in Hc as [Hc|Hc]; [apply andb_false_iff in Hc as [Hc|Hc]|]; [apply Z.leb_gt in Hc|apply Z.ltb_ge in Hc|apply Z.leb_gt in Hc]; lia. }
      rewrite EZ. match goal with |- (Cmod (V - (?a + RtoC 0))%C <= _)%R => replace (V - (a + RtoC 0))%C with (V - a)%C by ring end. lra. }
  destruct CS as (M' & V' & C1 & C2 & C3 & C4).
  rewrite Cmod_R, Rabs_pos_eq by lra. replace (IZR (N * (J + 1) + 8)) with (INR H + 7)%R by (rewrite HI, <- plus_IZR; f_equal; lia).
  fold Xv in C3 |- *. destruct (finish H g M' V') as (P1 & P2 & P3); auto; try lra.
  - intros HZ. destruct (C4 (proj2 HZ)) as [-> ->].
    assert (TZ : forall j, In j js -> cabs (fj j) = 0%R /\ clsum (fj j) = RtoC 0).
    { intros j Hj. apply (zero_list HZ j). now apply (scale_errl j (SEJ j Hj)). }
    split.
    + unfold M, TL. rewrite cabs_flat, (map_ext_in _ (fun _ => 0%R)). { rewrite lsum_const. ring. } intros j Hj. now apply TZ.
    + unfold V, TL. rewrite clsum_flat, (map_ext_in _ (fun _ => RtoC 0)); [apply clist_zero|]. intros j Hj. now apply TZ.
  - split; [exact P1|]. split; [exact P2|]. intros HZ1 HZ2. apply P3. split; assumption.
Qed.
End Loop.
End Syn.
End G.
