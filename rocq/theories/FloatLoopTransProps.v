(** Statements and proofs for PropertiesFloatLoopTrans.v *)

From Coq Require Import ZArith Reals List Bool Permutation Lia Lra Psatz FunctionalExtensionality.
From Coquelicot Require Import Rcomplements Complex.
From Flocq Require Import Core Relative IEEE754.BinarySingleNaN.
From Verif Require Import Py PyFacts ModelSamples SamplesFacts ModelFilters ModelTransforms FiltersFacts AxisymFacts DirectionFacts DirFilterFacts
  Spec SpecTransforms SpecQuad FiltersProps TransformsFacts BackendFacts LoopFacts ReconFacts RoundFacts TransformsProps SignalProps FrameProps.
From Verif Require Import ModelFloat ModelFloatDir ModelFloatTrans ModelFloatLoop FloatProps SpecFp SpecFpDir SpecFpTrans FloatFilterProps FloatDefault FloatAccProps FloatDirFacts FloatDirProps
  FloatDirFilterProps FloatSpinProps FloatTransFacts FloatLoopFacts FloatTransFilt FloatTransErr FloatTransCore FloatTransRound FloatTransSum FloatTransTrip FloatTransClosed FloatTransProps SamplesProps.
From Verif Require Import FloatFacts.
Import ListNotations.
Open Scope Z_scope.

(** ** the looped analysis computes the same numbers as the vectorised one *)

Lemma csgn_val k z : finite64 z -> finite64 (cmul (csgn64 k) z) /\ cval (cmul (csgn64 k) z) = Cmult (RtoC (sign_of k)) (cval z).
Proof.
  intros [Fa Fb]. destruct z as [a b]. cbn [fst snd] in *.
  set (s := fint (if Z.even k then 1 else -1)).
  assert (Fs : is_finite s = true) by (unfold s; destruct (Z.even k); reflexivity).
  assert (Vs : B2R s = sign_of k).
  { unfold s. rewrite sign_msgn. unfold msgn. destruct (Z.even k); apply fint_B2R; lia. }
  assert (S12 : B2R s = 1%R \/ B2R s = (-1)%R) by (rewrite Vs; apply sgn12).
  assert (M : forall x, is_finite x = true -> is_finite (fmul s x) = true /\ B2R (fmul s x) = (B2R s * B2R x)%R).
  { intros x Fx. assert (E : rnd (B2R s * B2R x) = (B2R s * B2R x)%R).
    { destruct S12 as [-> | ->]; [rewrite Rmult_1_l; apply rnd_id|]. replace (-1 * B2R x)%R with (- B2R x)%R by ring. now rewrite rnd_opp, rnd_id. }
    destruct (fmul_ok s x Fs Fx) as [F V]; [|split; [exact F|rewrite V; exact E]].
    rewrite E, Rabs_mult. replace (Rabs (B2R s)) with 1%R by (destruct S12 as [-> | ->]; [rewrite Rabs_pos_eq; lra|rewrite Rabs_left; lra]). rewrite Rmult_1_l. apply abs_B2R_lt_emax. }
  assert (Z0 : forall x, is_finite x = true -> is_finite (fmul (fint 0) x) = true /\ B2R (fmul (fint 0) x) = 0%R).
  { intros x Fx. destruct (fmul_ok (fint 0) x eq_refl Fx) as [F V]; change (B2R (fint 0)) with 0%R in *; rewrite Rmult_0_l, rnd_0 in *; [|auto].
    rewrite Rabs_R0. apply bpow_gt_0. }
  destruct (M a Fa) as [F1 V1], (M b Fb) as [F2 V2], (Z0 a Fa) as [F3 V3], (Z0 b Fb) as [F4 V4].
  destruct (fsub_ok (fmul s a) (fmul (fint 0) b) F1 F4) as [F5 V5].
  { rewrite V4, Rminus_0_r, rnd_id. apply abs_B2R_lt_emax. }
  destruct (fadd_ok (fmul s b) (fmul (fint 0) a) F2 F3) as [F6 V6].
  { rewrite V3, Rplus_0_r, rnd_id. apply abs_B2R_lt_emax. }
  rewrite V4, Rminus_0_r, rnd_id, V1 in V5. rewrite V3, Rplus_0_r, rnd_id, V2 in V6.
  split; [split; [exact F5|exact F6]|]. unfold cval, Cmult, RtoC. cbn [fst snd csgn64 cmul creal]. fold s. rewrite V5, V6, Vs. f_equal; ring.
Qed.

Section An.
Variables (L N J_min J spin : Z) (mr : bool) (psi : arr3 c64) (phi : arr1 f64).
Hypothesis HL : 1 <= L <= 2 ^ 52.
Hypothesis HN : 1 <= N <= L.
Hypothesis HF : filt L N J_min J spin 2 (vals3 psi) (vals1 phi).
Hypothesis Hpsi : forall j l n, J_min <= j <= J -> 0 <= l < L -> Z.abs n < L -> let z := get3 psi j l (L - 1 + n) in
  finite64 z /\ exists v, cval z = Cmult (nu N) (RtoC v) /\ fsize (w8 l) v.
Hypothesis Hphi : forall l, 0 <= l < L -> is_finite (get1 phi l) = true /\ fsize (w4 l * w4 l) (B2R (get1 phi l)).
Notation Lj j := (Lj_of L j 2 mr).
Notation Nj j := (Nj_of L j N 2 mr).
Notation L0 j := (L0_of j 2 mr).
Notation Ls := (Ls_of L J_min 2 mr).

Lemma wval_wav flm j n l m : J_min <= j <= J -> Z.abs n < Nj j -> Z.even (Nj j - 1 + n) = true -> L0 j <= l < Lj j -> Z.abs m < Lj j ->
  wval64 L psi flm j n l m = get3 (wav64 L (Lj j) (Nj j) (L0 j) j psi flm) (Nj j - 1 + n) l (Lj j - 1 + m).
Proof.
  intros Hj Hn He Hl Hm. destruct (Hsz L N J_min J spin mr psi phi HL HN HF j Hj) as (Z1 & Z2 & Z3 & Z4).
  unfold wav64. rewrite get3_mk by lia. rewrite He. destruct (Z.leb_spec (L0 j) l); [|lia]. cbn [andb]. unfold wval64, w8f.
  replace (L - Lj j + (Lj j - 1 + m)) with (L - 1 + m) by lia. replace (L - Nj j + (Nj j - 1 + n)) with (L - 1 + n) by lia. reflexivity.
Qed.
Lemma wloop_same flm reality j : J_min <= j <= J -> is_harmonic L spin reality (vals2 flm) -> numbers2 (bpow radix2 900) flm ->
  same3 (wloop64 L spin psi flm reality j (Lj j) (Nj j) (L0 j)) (wav64 L (Lj j) (Nj j) (L0 j) j psi flm).
Proof.
  intros Hj Hh HB. pose proof Hh as ((R & C & F) & _). change (rows flm = L) in R. change (cols flm = 2 * L - 1) in C.
  destruct (Hsz L N J_min J spin mr psi phi HL HN HF j Hj) as (Z1 & Z2 & Z3 & Z4).
  pose proof (wav_is L N J_min J spin mr psi phi HL HN HF Hpsi flm j reality Hj HB Hh) as ((_ & _ & _ & WS) & WR).
  assert (NW : forall a l b, 0 <= a < 2 * Nj j - 1 -> 0 <= l < Lj j -> 0 <= b < 2 * Lj j - 1 -> finite64 (get3 (wav64 L (Lj j) (Nj j) (L0 j) j psi flm) a l b)).
  { intros. apply (wav_near L N J_min J spin mr psi phi HL HN HF Hpsi flm j Hj R C HB); assumption. }
  assert (V : forall a l b, 0 <= a < 2 * Nj j - 1 -> 0 <= l < Lj j -> 0 <= b < 2 * Lj j - 1 ->
    get3 (vals3 (wav64 L (Lj j) (Nj j) (L0 j) j psi flm)) a l b = cval (get3 (wav64 L (Lj j) (Nj j) (L0 j) j psi flm) a l b)).
  { intros. apply get3_vals; cbn [wav64 dim0 dim1 dim2 mk3]; lia. }
  repeat (split; [reflexivity|]). intros a l b Ha Hl Hb. cbn [wav64 dim0 dim1 dim2 mk3] in Ha, Hl, Hb.
  unfold wloop64. rewrite get3_mk by lia. cbv zeta.
  destruct (Z.even a && _ && _) eqn:E.
  - apply andb_prop in E as [E E3]. apply andb_prop in E as [E1 E2]. apply Z.leb_le in E2, E3. unfold wvalr64.
    destruct (reality && (b - (Lj j - 1) <? 0)) eqn:Er.
    + apply andb_prop in Er as [-> Er]. apply Z.ltb_lt in Er.
      assert (Eo : Z.even (Nj j - 1 + - (a - (Nj j - 1))) = true).
      { replace (Nj j - 1 + - (a - (Nj j - 1))) with (2 * (Nj j - 1) - a) by lia. rewrite Z.even_sub, Z.even_mul, E1. reflexivity. }
      rewrite wval_wav by (auto; lia).
      set (z := get3 (wav64 L (Lj j) (Nj j) (L0 j) j psi flm) (Nj j - 1 + - (a - (Nj j - 1))) l (Lj j - 1 + - (b - (Lj j - 1)))).
      assert (Fz : finite64 z) by (apply NW; lia).
      destruct (csgn_val (- (b - (Lj j - 1)) + - (a - (Nj j - 1))) (cconj64 z) (cconj64_fin z Fz)) as [G1 G2]. split; [|intros _; exact G1].
      rewrite G2, cconj64_val. specialize (WR eq_refl (- (a - (Nj j - 1))) l (- (b - (Lj j - 1)))).
      replace (Nj j - 1 - - (a - (Nj j - 1))) with a in WR by lia. replace (Lj j - 1 - - (b - (Lj j - 1))) with b in WR by lia.
      rewrite !V in WR by lia. symmetry. exact WR.
    + rewrite wval_wav; [| |lia| |lia|lia]; [|exact Hj|replace (Nj j - 1 + (a - (Nj j - 1))) with a by lia; exact E1].
      replace (Nj j - 1 + (a - (Nj j - 1))) with a by lia. replace (Lj j - 1 + (b - (Lj j - 1))) with b by lia. split; [reflexivity|auto].
  - split; [|intros _; now split]. rewrite cval0. symmetry. rewrite <- V by lia.
    destruct (Ceq_dec (get3 (vals3 (wav64 L (Lj j) (Nj j) (L0 j) j psi flm)) a l b) (RtoC 0)) as [H|H]; [exact H|exfalso].
    pose proof H as H'. rewrite (wav_val L N J_min J spin mr psi phi HL HN HF Hpsi flm j a l b Hj R C HB Ha Hl Hb) in H'.
    destruct (Z.even a); cbn [andb] in *; [|congruence]. destruct (Z.leb_spec (L0 j) l); [|congruence].
    apply cm_nz in H' as [Hf Hp]. apply cm_nz in Hp as [Hp _]. apply Cconj_nz in Hp. apply F in Hf.
    pose proof (f_range _ _ _ _ _ _ _ _ HF). apply (f_psi_supp _ _ _ _ _ _ _ _ HF mr) in Hp; try lia.
Qed.
Lemma sloop_same flm reality : is_harmonic L spin reality (vals2 flm) -> numbers2 (bpow radix2 900) flm ->
  same2 (sloop64 L spin phi flm reality Ls) (sca64 L phi flm Ls).
Proof.
  intros Hh HB. pose proof Hh as ((R & C & F) & _). change (rows flm = L) in R. change (cols flm = 2 * L - 1) in C.
  pose proof (HLs L J_min mr HL) as HS.
  pose proof (sca_is L J_min spin mr phi HL Hphi flm reality HB Hh) as ((_ & _ & WS) & WR).
  assert (NW : forall l b, 0 <= l < Ls -> 0 <= b < 2 * Ls - 1 -> finite64 (get2 (sca64 L phi flm Ls) l b)).
  { intros. apply (sca_near L N J_min J spin mr psi phi HL HF Hphi flm R C HB); assumption. }
  assert (V : forall l b, 0 <= l < Ls -> 0 <= b < 2 * Ls - 1 -> get2 (vals2 (sca64 L phi flm Ls)) l b = cval (get2 (sca64 L phi flm Ls) l b)).
  { intros. apply get2_vals; cbn [sca64 rows cols mk2]; lia. }
  assert (P : forall l m, 0 <= l < Ls -> Z.abs m < Ls -> cmul (get2 flm l (L - 1 + m)) (pval64 phi l) = get2 (sca64 L phi flm Ls) l (Ls - 1 + m)).
  { intros l m Hl Hm. unfold sca64. rewrite get2_mk by lia. unfold pval64, w4f. rewrite (fmul_sym _ (get1 phi l)). do 2 f_equal. lia. }
  repeat (split; [reflexivity|]). intros l b Hl Hb. cbn [sca64 rows cols mk2] in Hl, Hb.
  unfold sloop64. rewrite get2_mk by lia. cbv zeta.
  destruct ((Z.abs spin <=? l) && _) eqn:E.
  - apply andb_prop in E as [E1 E2]. apply Z.leb_le in E1, E2. unfold svalr64.
    destruct (reality && (b - (Ls - 1) <? 0)) eqn:Er.
    + apply andb_prop in Er as [-> Er]. apply Z.ltb_lt in Er. rewrite P by lia.
      set (z := get2 (sca64 L phi flm Ls) l (Ls - 1 + - (b - (Ls - 1)))).
      assert (Fz : finite64 z) by (apply NW; lia).
      destruct (csgn_val (- (b - (Ls - 1))) (cconj64 z) (cconj64_fin z Fz)) as [G1 G2]. split; [|intros _; exact G1].
      rewrite G2, cconj64_val. specialize (WR eq_refl l (- (b - (Ls - 1)))). replace (Ls - 1 - - (b - (Ls - 1))) with b in WR by lia.
      rewrite !V in WR by lia. symmetry. exact WR.
    + rewrite P by lia. replace (Ls - 1 + (b - (Ls - 1))) with b by lia. split; [reflexivity|auto].
  - split; [|intros _; now split]. rewrite cval0. symmetry. rewrite <- V by lia.
    destruct (Ceq_dec (get2 (vals2 (sca64 L phi flm Ls)) l b) (RtoC 0)) as [H|H]; [exact H|exfalso].
    pose proof (WS l (b - (Ls - 1))) as W. replace (Ls - 1 + (b - (Ls - 1))) with b in W by lia. specialize (W H).
    apply andb_false_iff in E as [E|E]; apply Z.leb_gt in E; lia.
Qed.
End An.

(*T The looped transforms in binary64 *)
(*! From Coq Require Import ZArith Reals List Bool. *)
(*! From Coquelicot Require Import Complex. *)
(*! From Flocq Require Import Core IEEE754.BinarySingleNaN. *)
(*! Import ListNotations. *)
(*! From Verif Require Import Py ModelSamples ModelFilters ModelFloat ModelFloatDir ModelFloatTrans ModelFloatLoop Spec SpecTransforms SpecQuad SpecFp SpecFpDir SpecFpTrans. *)

(*% ** C80: looped analysis and synthesis in binary64 *)

(*@ C80_looped_analysis_coefficients *)
Lemma anl64 : forall fexp fpow flg O J f flm L N J_min spin s nside reality mr psi phi sz Ls,
  1 <= L <= 2 ^ 52 -> 1 <= N <= L -> N <= 41 -> accurate_loggamma flg -> relative_exp fexp -> accurate_exp fexp -> exact_powers fpow J -> j_max L 2 = Ok J ->
  filters_directional_fp fexp fpow flg J L N J_min (fint 2) spin 0 = Ok (psi, phi) -> sampling_known s nside ->
  (forall j, LN_j L j N 2 mr = Ok (sz j)) -> scal_bandlimit L J_min 2 mr = Ok Ls ->
  fwd64 O f L spin s nside reality = Ok flm -> is_harmonic L spin reality (vals2 flm) -> numbers2 (bpow radix2 900) flm ->
  exists W S,
    analysis_looped_fp fexp fpow flg O J f L N J_min (fint 2) spin 0 s nside reality mr
    = (w <- mapM (fun j => let '(Lj, Nj, L0j) := sz j in winv64 O (W j) Lj Nj L0j s reality nside) (zrange J_min (J + 1)) ;;
       sc <- inv64 O S Ls spin s nside reality ;;
       Ok (w, sc)) /\
    (forall j, J_min <= j <= J -> near3 (bpow radix2 (-49)) (bpow radix2 (-1073)) (W j) (wcoefs L (vals3 psi) (vals2 flm) sz j)) /\
    near2 (bpow radix2 (-49)) (bpow radix2 (-1073)) S (scaling_coefs L (vals1 phi) (vals2 flm) Ls).
Proof.
  intros fexp fpow flg O J f flm L N J_min spin s nside reality mr psi phi sz Ls HL HN HN' Hg Hr Hf HP EJ EF Hs Esz ELs Ef Hh Hn.
  pose proof Hh as ((R1 & R2 & _) & _). change (rows flm = L) in R1. change (cols flm = 2 * L - 1) in R2.
  pose proof (filt64 fexp fpow flg J L N J_min spin psi phi HL ltac:(lia) Hg Hr Hf HP EJ (or_introl EF)) as HF. pose proof (f_range _ _ _ _ _ _ _ _ HF) as HJ.
  pose proof (J_le L J HL EJ) as HJ52. destruct (dims L N J_min J spin psi phi HF) as (D0 & D1 & D2 & D3 & _).
  rewrite (sz_eq L N 2 mr sz ltac:(lra) Esz), (Ls_eq L J_min 2 mr Ls ltac:(lra) ELs).
  pose proof (szs fpow L N J mr HL ltac:(lia) HP) as SZ.
  assert (Hp : forall j l n, J_min <= j <= J -> 0 <= l < L -> Z.abs n < L -> let z := get3 psi j l (L - 1 + n) in finite64 z /\ exists v, cval z = Cmult (nu N) (RtoC v) /\ fsize (w8 l) v)
    by (intros; apply (size_psi fexp fpow flg J L N J_min spin psi phi); auto; lia).
  assert (Hq : forall l, 0 <= l < L -> is_finite (get1 phi l) = true /\ fsize (w4 l * w4 l) (B2R (get1 phi l)))
    by (intros; apply (size_phi fexp fpow flg J L N J_min spin psi phi); auto; lia).
  exists (fun j => wloop64 L spin psi flm reality j (Lj_of L j 2 mr) (Nj_of L j N 2 mr) (L0_of j 2 mr)), (sloop64 L spin phi flm reality (Ls_of L J_min 2 mr)). split; [|split].
  - rewrite (analysis_looped64_ok fexp fpow flg L N J_min J (fint 2) mr (fun j => Lj_of L j 2 mr) (fun j => Nj_of L j N 2 mr) (fun j => L0_of j 2 mr) (Ls_of L J_min 2 mr)) with (psi := psi) (phi := phi); auto; try lia.
    + rewrite Ef. cbn [bind]. reflexivity.
    + intros j Hj. apply SZ. lia.
    + intros j Hj. destruct (Hsz L N J_min J spin mr psi phi HL HN HF j Hj) as (Z1 & Z2 & Z3 & Z4). lia.
    + apply SZ. lia.
    + apply (HLs L J_min mr HL).
    + intros flm' E. rewrite Ef in E. apply Ok_inj in E. subst flm'. auto.
  - intros j Hj. eapply same3_near; [apply (wloop_same L N J_min J spin mr psi phi HL HN HF Hp flm reality j Hj Hh Hn)|].
    apply (wav_near L N J_min J spin mr psi phi); auto.
  - eapply same2_near; [apply (sloop_same L N J_min J spin mr psi phi HL HF Hq flm reality Hh Hn)|].
    apply (sca_near L N J_min J spin mr psi phi); auto.
Qed.

(*@ C80_looped_synthesis_coefficients *)
Lemma syl64 : forall fexp fpow flg O J f_wav f_scal T S L N J_min spin s nside reality mr psi phi sz Ls,
  1 <= L <= 2 ^ 52 -> 1 <= N <= L -> N <= 41 -> accurate_loggamma flg -> relative_exp fexp -> accurate_exp fexp -> exact_powers fpow J -> j_max L 2 = Ok J ->
  filters_directional_fp fexp fpow flg J L N J_min (fint 2) spin 0 = Ok (psi, phi) ->
  (forall j, LN_j L j N 2 mr = Ok (sz j)) -> scal_bandlimit L J_min 2 mr = Ok Ls ->
  wavelet_shape_check_fp fpow J f_wav f_scal L N J_min (fint 2) s nside mr = Ok tt ->
  fwd64 O f_scal Ls spin s nside reality = Ok S -> harmonic Ls spin (vals2 S) -> numbers2 (bpow radix2 900) S ->
  (forall j, J_min <= j <= J -> let '(Lj, Nj, L0j) := sz j in
     (exists fj, lrd f_wav (j - J_min) = Ok fj /\ wfwd64 O fj Lj Nj L0j s reality nside = Ok (T j)) /\
     wigner Lj Nj L0j (vals3 (T j)) /\ numbers3 (bpow radix2 900) (T j)) ->
  exists g,
    synthesis_looped_fp fexp fpow flg O J f_wav f_scal L N J_min (fint 2) spin 0 s nside reality mr = inv64 O g L spin s nside reality /\
    rows g = L /\ cols g = 2 * L - 1 /\
    forall l q, 0 <= l < L -> 0 <= q < 2 * L - 1 -> (reality = true -> L - 1 <= q) ->
      finite64 (get2 g l q) /\
      (Cmod (cval (get2 g l q) - get2 (synthesised L J_min J (vals3 psi) (vals1 phi) sz (fun j => vals3 (T j)) Ls (vals2 S)) l q)%C
       <= IZR (N * (J + 1) + 8) * bpow radix2 (-52) *
          Cmod (get2 (synthesised L J_min J (abs3 (vals3 psi)) (abs1 (vals1 phi)) sz (fun j => abs3 (vals3 (T j))) Ls (abs2 (vals2 S))) l q) + bpow radix2 (-1060))%R.
Proof.
  intros fexp fpow flg O J f_wav f_scal T S L N J_min spin s nside reality mr psi phi sz Ls HL HN HN' Hg Hr Hf HP EJ EF Esz ELs EC ES HhS Hn HT.
  pose proof (filt64 fexp fpow flg J L N J_min spin psi phi HL ltac:(lia) Hg Hr Hf HP EJ (or_introl EF)) as HF. pose proof (f_range _ _ _ _ _ _ _ _ HF) as HJ.
  pose proof (J_le L J HL EJ) as HJ52. destruct (dims L N J_min J spin psi phi HF) as (D0 & D1 & D2 & D3 & _).
  rewrite (sz_eq L N 2 mr sz ltac:(lra) Esz) in *. rewrite (Ls_eq L J_min 2 mr Ls ltac:(lra) ELs) in *. clear Esz ELs sz Ls.
  pose proof HhS as (R1 & R2 & _). change (rows S = Ls_of L J_min 2 mr) in R1. change (cols S = 2 * Ls_of L J_min 2 mr - 1) in R2.
  pose proof (szs fpow L N J mr HL ltac:(lia) HP) as SZ. set (Ts := map T (zrange J_min (J + 1))).
  assert (TN : forall j, J_min <= j <= J -> Tnth nd30 J_min Ts j = T j) by (intros j Hj; unfold Ts; apply Tnth_map; lia).
  assert (Hp : forall j l n, J_min <= j <= J -> 0 <= l < L -> Z.abs n < L -> let z := get3 psi j l (L - 1 + n) in finite64 z /\ exists v, cval z = Cmult (nu N) (RtoC v) /\ fsize (w8 l) v)
    by (intros; apply (size_psi fexp fpow flg J L N J_min spin psi phi); auto; lia).
  assert (Hq : forall l, 0 <= l < L -> is_finite (get1 phi l) = true /\ fsize (w4 l * w4 l) (B2R (get1 phi l)))
    by (intros; apply (size_phi fexp fpow flg J L N J_min spin psi phi); auto; lia).
  assert (DT : forall j, J_min <= j <= J -> dim0 (T j) = 2 * Nj_of L j N 2 mr - 1 /\ dim1 (T j) = Lj_of L j 2 mr /\ dim2 (T j) = 2 * Lj_of L j 2 mr - 1).
  { intros j Hj. pose proof (HT j Hj) as X. unfold szf in X. destruct X as (_ & (W0 & W1 & W2 & _) & _). auto. }
  exists (synl64 L J_min J (fun j => Lj_of L j 2 mr) (fun j => Nj_of L j N 2 mr) (fun j => L0_of j 2 mr) (Ls_of L J_min 2 mr) spin psi phi reality Ts S).
  split; [|split; [reflexivity|split; [reflexivity|]]].
  - rewrite (synthesis_looped64_ok fexp fpow flg L N J_min J (fint 2) mr (fun j => Lj_of L j 2 mr) (fun j => Nj_of L j N 2 mr) (fun j => L0_of j 2 mr) (Ls_of L J_min 2 mr)) with (psi := psi) (phi := phi); auto; try lia.
    + rewrite EC. cbn [bind]. rewrite ES. cbn [bind]. rewrite (mapM_ok _ T); [reflexivity|]. intros j Hj. apply In_zrange in Hj.
      pose proof (HT j ltac:(lia)) as X. unfold szf in X. destruct X as ((fj & E1 & E2) & _). rewrite E1. cbn [bind]. exact E2.
    + intros j Hj. apply SZ. lia.
    + intros j Hj. destruct (Hsz L N J_min J spin mr psi phi HL HN HF j Hj) as (Z1 & Z2 & Z3 & Z4). lia.
    + apply SZ. lia.
    + apply (HLs L J_min mr HL).
    + intros S' E. rewrite ES in E. apply Ok_inj in E. subst S'. auto.
    + intros j fj T' Hj E1 E2. pose proof (HT j Hj) as X. unfold szf in X. destruct X as ((fj' & E1' & E2') & _).
      assert (fj' = fj) as -> by congruence. assert (T' = T j) as -> by congruence. auto.
  - intros l q Hl Hq' Hre.
    destruct (synl_near L N J_min J spin mr psi phi HL HN HN' ltac:(lia) HF Hp Hq Ts S l q) with (reality := reality) as (F & E & _); auto.
    { intros j Hj. cbv zeta. rewrite TN by exact Hj. pose proof (HT j Hj) as X. unfold szf in X. destruct (DT j Hj) as (A0 & A1 & A2). tauto. }
    { intros j Hj. rewrite TN by exact Hj. pose proof (HT j Hj) as X. unfold szf in X. tauto. }
    split; [exact F|].
    rewrite (synth_ext _ _ _ _ _ _ (fun j => vals3 (T j)) (fun j => vals3 (Tnth nd30 J_min Ts j))) by (intros j Hj; now rewrite TN).
    rewrite (synth_ext _ _ _ (abs3 (vals3 psi)) _ _ (fun j => abs3 (vals3 (T j))) (fun j => abs3 (vals3 (Tnth nd30 J_min Ts j)))) by (intros j Hj; now rewrite TN).
    exact E.
Qed.

(*% the looped pair: the filters are the looped ones, whose sum of squares is known up to three quadrature errors *)
(*@ C80_looped_round_trip *)
Lemma rtl64 : forall fexp fpow flg O J flm f L N J_min spin s nside mr d B,
  1 <= L <= 2 ^ 52 -> 1 <= N <= L -> N <= 41 -> accurate_loggamma flg -> relative_exp fexp -> accurate_exp fexp -> exact_powers fpow J -> j_max L 2 = Ok J ->
  0 <= J_min < J -> (0 <= d <= 1)%R -> (bpow radix2 (-900) <= B <= bpow radix2 780)%R -> accurate64 true d O L spin s nside false ->
  harmonic L spin (vals2 flm) -> numbers2 B flm -> inv64 O flm L spin s nside false = Ok f ->
  exists w sc g,
    analysis_looped_fp fexp fpow flg O J f L N J_min (fint 2) spin 0 s nside false mr = Ok (w, sc) /\
    synthesis_looped_fp fexp fpow flg O J w sc L N J_min (fint 2) spin 0 s nside false mr = inv64 O g L spin s nside false /\
    harmonic L spin (vals2 g) /\
    forall l q, 0 <= l < L -> 0 <= q < 2 * L - 1 ->
      finite64 (get2 g l q) /\
      (Cmod (cval (get2 g l q) - cval (get2 flm l q))%C
       <= (3 * quad_error 2 300 + bpow radix2 (-30)) * Cmod (cval (get2 flm l q))
          + d * B * (3 * sqrt (IZR (N * (J + 1) * (2 * l + 1))) + 21) + bpow radix2 (-1000))%R.
Proof.
  intros fexp fpow flg O J flm0 f L N J_min spin s nside mr d B HL HN HN' Hg Hr Hf HP EJ HJ Hd HB HA Hh0 Hn0 Ef0.
  destruct (fp2_dirf_total fexp fpow flg J L N J_min spin 0 HL ltac:(left; lia) HJ HP) as [([psi phi] & EF) _].
  pose proof (filt64 fexp fpow flg J L N J_min spin psi phi HL ltac:(lia) Hg Hr Hf HP EJ (or_introl EF)) as HF.
  pose proof (J_le L J HL EJ) as HJ52. destruct (dims L N J_min J spin psi phi HF) as (D0 & D1 & D2 & D3 & _).
  pose proof (szs fpow L N J mr HL ltac:(lia) HP) as SZ. pose proof (HLs L J_min mr HL) as HLs'.
  assert (Hp : forall j l n, J_min <= j <= J -> 0 <= l < L -> Z.abs n < L -> let z := get3 psi j l (L - 1 + n) in finite64 z /\ exists v, cval z = Cmult (nu N) (RtoC v) /\ fsize (w8 l) v)
    by (intros; apply (size_psi fexp fpow flg J L N J_min spin psi phi); auto; lia).
  assert (Hq : forall l, 0 <= l < L -> is_finite (get1 phi l) = true /\ fsize (w4 l * w4 l) (B2R (get1 phi l)))
    by (intros; apply (size_phi fexp fpow flg J L N J_min spin psi phi); auto; lia).
  pose proof quad_err2 as QE. set (qe := quad_error 2 300) in *.
  destruct (rt_gen fexp fpow flg O J flm0 f L N J_min spin s nside false mr true d B psi phi
    (fun a j => wloop64 L spin psi a false j (Lj_of L j 2 mr) (Nj_of L j N 2 mr) (L0_of j 2 mr)) (fun a => sloop64 L spin phi a false (Ls_of L J_min 2 mr))
    (fun Ts S => synl64 L J_min J (fun j => Lj_of L j 2 mr) (fun j => Nj_of L j N 2 mr) (fun j => L0_of j 2 mr) (Ls_of L J_min 2 mr) spin psi phi false Ts S)
    (N * (J + 1) + 8) (3 * qe + bpow radix2 (-31))%R
    (analysis_looped_fp fexp fpow flg O J f L N J_min (fint 2) spin 0 s nside false mr)
    (fun w sc => synthesis_looped_fp fexp fpow flg O J w sc L N J_min (fint 2) spin 0 s nside false mr)) as (w & sc & g & E1 & E2 & E3 & E4); auto.
  - split; [exact Hh0|discriminate].
  - change (bpow radix2 (-31)) with (/ 2147483648)%R. lra.
  - intros l Hl. pose proof (total64_loop fexp fpow flg J L N J_min spin psi phi HL ltac:(lia) Hg Hr Hf HP EJ (or_introl EF) l Hl EF) as T. fold qe in T.
    change (bpow radix2 (-47)) with (/ 140737488355328)%R in T. change (bpow radix2 (-31)) with (/ 2147483648)%R in *. apply Rabs_le. lra.
  - intros a j Hj Ha Hn. apply (wloop_same L N J_min J spin mr psi phi HL HN HF Hp a false j Hj Ha Hn).
  - intros a Ha Hn. apply (sloop_same L N J_min J spin mr psi phi HL HF Hq a false Ha Hn).
  - nia.
  - intros Ts S HT HWg HS HHr l q Hl Hq'.
    exact (synl_near L N J_min J spin mr psi phi HL HN HN' ltac:(lia) HF Hp Hq Ts S l q HT HS Hl Hq' false ltac:(discriminate) HWg HHr).
  - intros Hs Hf0. apply (analysis_looped64_ok fexp fpow flg L N J_min J (fint 2) mr (fun j => Lj_of L j 2 mr) (fun j => Nj_of L j N 2 mr) (fun j => L0_of j 2 mr) (Ls_of L J_min 2 mr)) with (psi := psi) (phi := phi); auto; try lia.
    + intros j Hj. apply SZ. lia.
    + intros j Hj. destruct (Hsz L N J_min J spin mr psi phi HL HN HF j Hj) as (Z1 & Z2 & Z3 & Z4). lia.
    + apply SZ. lia.
  - intros w sc EC HS HT.
    rewrite (synthesis_looped64_ok fexp fpow flg L N J_min J (fint 2) mr (fun j => Lj_of L j 2 mr) (fun j => Nj_of L j N 2 mr) (fun j => L0_of j 2 mr) (Ls_of L J_min 2 mr)) with (psi := psi) (phi := phi); auto; try lia.
    + rewrite (EC eq_refl). reflexivity.
    + intros j Hj. apply SZ. lia.
    + intros j Hj. destruct (Hsz L N J_min J spin mr psi phi HL HN HF j Hj) as (Z1 & Z2 & Z3 & Z4). lia.
    + apply SZ. lia.
  - exists w, sc, g. split; [exact E1|]. split; [exact E2|]. split; [exact E3|]. intros l q Hl Hq'. destruct (E4 l q Hl Hq') as [F G]. split; [exact F|].
    eapply Rle_trans; [exact G|]. apply Rplus_le_compat_r, Rplus_le_compat_r. apply Rmult_le_compat_r; [apply Cmod_ge_0|].
    change (bpow radix2 (-31)) with (/ 2147483648)%R. change (bpow radix2 (-39)) with (/ 549755813888)%R. change (bpow radix2 (-30)) with (/ 1073741824)%R. lra.
Qed.

(*% real signals: the coefficients at the orders m >= 0, which are the ones that an inverse transform of a real signal reads *)
(*@ C80_looped_round_trip_real *)
Lemma rtlr64 : forall fexp fpow flg O J flm f L N J_min spin s nside mr d B,
  1 <= L <= 2 ^ 52 -> 1 <= N <= L -> N <= 41 -> accurate_loggamma flg -> relative_exp fexp -> accurate_exp fexp -> exact_powers fpow J -> j_max L 2 = Ok J ->
  0 <= J_min < J -> (0 <= d <= 1)%R -> (bpow radix2 (-900) <= B <= bpow radix2 780)%R -> accurate64 true d O L spin s nside true ->
  is_harmonic L spin true (vals2 flm) -> numbers2 B flm -> inv64 O flm L spin s nside true = Ok f ->
  exists w sc g,
    analysis_looped_fp fexp fpow flg O J f L N J_min (fint 2) spin 0 s nside true mr = Ok (w, sc) /\
    synthesis_looped_fp fexp fpow flg O J w sc L N J_min (fint 2) spin 0 s nside true mr = inv64 O g L spin s nside true /\
    rows g = L /\ cols g = 2 * L - 1 /\
    forall l m, 0 <= l < L -> 0 <= m < L ->
      let z := get2 g l (L - 1 + m) in let x := cval (get2 flm l (L - 1 + m)) in
      finite64 z /\
      (Cmod (cval z - x)%C
       <= (3 * quad_error 2 300 + bpow radix2 (-30)) * Cmod x
          + d * B * (3 * sqrt (IZR (N * (J + 1) * (2 * l + 1))) + 21) + bpow radix2 (-1000))%R.
Proof.
  intros fexp fpow flg O J flm0 f L N J_min spin s nside mr d B HL HN HN' Hg Hr Hf HP EJ HJ Hd HB HA Hh0 Hn0 Ef0.
  destruct (fp2_dirf_total fexp fpow flg J L N J_min spin 0 HL ltac:(left; lia) HJ HP) as [([psi phi] & EF) _].
  pose proof (filt64 fexp fpow flg J L N J_min spin psi phi HL ltac:(lia) Hg Hr Hf HP EJ (or_introl EF)) as HF.
  pose proof (J_le L J HL EJ) as HJ52. destruct (dims L N J_min J spin psi phi HF) as (D0 & D1 & D2 & D3 & _).
  pose proof (szs fpow L N J mr HL ltac:(lia) HP) as SZ. pose proof (HLs L J_min mr HL) as HLs'.
  assert (Hp : forall j l n, J_min <= j <= J -> 0 <= l < L -> Z.abs n < L -> let z := get3 psi j l (L - 1 + n) in finite64 z /\ exists v, cval z = Cmult (nu N) (RtoC v) /\ fsize (w8 l) v)
    by (intros; apply (size_psi fexp fpow flg J L N J_min spin psi phi); auto; lia).
  assert (Hq : forall l, 0 <= l < L -> is_finite (get1 phi l) = true /\ fsize (w4 l * w4 l) (B2R (get1 phi l)))
    by (intros; apply (size_phi fexp fpow flg J L N J_min spin psi phi); auto; lia).
  set (gs := fun r Ts S => synl64 L J_min J (fun j => Lj_of L j 2 mr) (fun j => Nj_of L j N 2 mr) (fun j => L0_of j 2 mr) (Ls_of L J_min 2 mr) spin psi phi r Ts S).
  pose proof quad_err2 as QE. set (qe := quad_error 2 300) in *.
  destruct (rt_gen_at fexp fpow flg O J flm0 f L N J_min spin s nside true mr true d B psi phi
    (fun a j => wloop64 L spin psi a true j (Lj_of L j 2 mr) (Nj_of L j N 2 mr) (L0_of j 2 mr)) (fun a => sloop64 L spin phi a true (Ls_of L J_min 2 mr))
    (fun Ts S => mk2 L (2 * L - 1) (fun l q => get2 (gs (L - 1 <=? q) Ts S) l q))
    (N * (J + 1) + 8) (3 * qe + bpow radix2 (-31))%R
    (analysis_looped_fp fexp fpow flg O J f L N J_min (fint 2) spin 0 s nside true mr)
    (fun w sc => synthesis_looped_fp fexp fpow flg O J w sc L N J_min (fint 2) spin 0 s nside true mr)
    (fun Ts S => inv64 O (gs true Ts S) L spin s nside true)) as (w & sc & Ts & S & E1 & E2 & _ & E4); auto.
  - change (bpow radix2 (-31)) with (/ 2147483648)%R. lra.
  - intros l Hl. pose proof (total64_loop fexp fpow flg J L N J_min spin psi phi HL ltac:(lia) Hg Hr Hf HP EJ (or_introl EF) l Hl EF) as T. fold qe in T.
    change (bpow radix2 (-47)) with (/ 140737488355328)%R in T. change (bpow radix2 (-31)) with (/ 2147483648)%R in *. apply Rabs_le. lra.
  - intros a j Hj Ha Hn. apply (wloop_same L N J_min J spin mr psi phi HL HN HF Hp a true j Hj Ha Hn).
  - intros a Ha Hn. apply (sloop_same L N J_min J spin mr psi phi HL HF Hq a true Ha Hn).
  - nia.
  - intros Ts S HT HWg HS HHr l q Hl Hq'. unfold added. rewrite !get2_mk by lia. destruct (Z.leb_spec (L - 1) q) as [Hq2|Hq2].
    + exact (synl_near L N J_min J spin mr psi phi HL HN HN' ltac:(lia) HF Hp Hq Ts S l q HT HS Hl Hq' true ltac:(lia) HWg HHr).
    + exact (synl_near L N J_min J spin mr psi phi HL HN HN' ltac:(lia) HF Hp Hq Ts S l q HT HS Hl Hq' false ltac:(discriminate) HWg HHr).
  - intros Hs Hf0. apply (analysis_looped64_ok fexp fpow flg L N J_min J (fint 2) mr (fun j => Lj_of L j 2 mr) (fun j => Nj_of L j N 2 mr) (fun j => L0_of j 2 mr) (Ls_of L J_min 2 mr)) with (psi := psi) (phi := phi); auto; try lia.
    + intros j Hj. apply SZ. lia.
    + intros j Hj. destruct (Hsz L N J_min J spin mr psi phi HL HN HF j Hj) as (Z1 & Z2 & Z3 & Z4). lia.
    + apply SZ. lia.
  - intros w sc EC HS HT.
    rewrite (synthesis_looped64_ok fexp fpow flg L N J_min J (fint 2) mr (fun j => Lj_of L j 2 mr) (fun j => Nj_of L j N 2 mr) (fun j => L0_of j 2 mr) (Ls_of L J_min 2 mr)) with (psi := psi) (phi := phi); auto; try lia.
    + rewrite (EC eq_refl). reflexivity.
    + intros j Hj. apply SZ. lia.
    + intros j Hj. destruct (Hsz L N J_min J spin mr psi phi HL HN HF j Hj) as (Z1 & Z2 & Z3 & Z4). lia.
    + apply SZ. lia.
  - exists w, sc, (gs true Ts S). split; [exact E1|]. split; [exact E2|]. split; [reflexivity|]. split; [reflexivity|].
    intros l m Hl Hm z x. destruct (E4 l (L - 1 + m) Hl ltac:(lia)) as [F G]. rewrite get2_mk in F, G by lia.
    destruct (Z.leb_spec (L - 1) (L - 1 + m)) as [_|Hx]; [|lia]. fold z in F, G. fold x in G. split; [exact F|].
    eapply Rle_trans; [exact G|]. apply Rplus_le_compat_r, Rplus_le_compat_r. apply Rmult_le_compat_r; [apply Cmod_ge_0|].
    change (bpow radix2 (-31)) with (/ 2147483648)%R. change (bpow radix2 (-39)) with (/ 549755813888)%R. change (bpow radix2 (-30)) with (/ 1073741824)%R. lra.
Qed.

(** coefficients of a real field: 1 at every order m >= 0, (-1)^m below *)
Definition reals_at (M l q : Z) : c64 := if Z.abs (q - (M - 1)) <=? l then (if q <? M - 1 then csgn64 (q - (M - 1)) else creal (fint 1)) else creal (fint 0).
Definition reals : arr2 c64 := mk2 5 9 (reals_at 5).
Definition real3 : arr3 c64 := mk3 5 5 9 (fun a l q => if (Z.even a) && (Z.abs (a - 2) <=? l) && (Z.abs (q - 4) <=? l) then creal (fint 1) else creal (fint 0)).
Lemma csgn_fin k : finite64 (csgn64 k) /\ cval (csgn64 k) = RtoC (sign_of k).
Proof.
  unfold csgn64. split; [apply fin_creal, fint_fin; destruct (Z.even k); lia|]. rewrite cval_creal, sign_msgn, fint_B2R by (destruct (Z.even k); lia).
  unfold msgn. destruct (Z.even k); reflexivity.
Qed.
Lemma reals_get l q : finite64 (reals_at 5 l q) /\ cval (reals_at 5 l q) = (if Z.abs (q - 4) <=? l then (if q <? 4 then RtoC (sign_of (q - 4)) else RtoC 1) else RtoC 0).
Proof.
  unfold reals_at. change (5 - 1) with 4. destruct (Z.abs (q - 4) <=? l); [destruct (q <? 4)|].
  - apply csgn_fin.
  - split; [apply fin_creal, fint_fin; lia|]. rewrite cval_creal, fint_B2R by lia. reflexivity.
  - split; [apply fin_creal, fint_fin; lia|]. reflexivity.
Qed.
Lemma reals_harmonic : is_harmonic 5 0 true (vals2 reals).
Proof.
  assert (G : forall l q, get2 (vals2 reals) l q = if inb 5 l && inb 9 q then cval (reals_at 5 l q) else RtoC 0).
  { intros l q. unfold vals2. cbn [get2 mk2]. change (rows reals) with 5. change (cols reals) with 9. destruct (inb 5 l && inb 9 q) eqn:E; [|reflexivity].
    apply andb_prop in E as [I1 I2]. apply inb_true in I1, I2. unfold reals. now rewrite get2_mk by lia. }
  split.
  - split; [reflexivity|]. split; [reflexivity|]. intros l m. rewrite G. destruct (inb 5 l && inb 9 (5 - 1 + m)) eqn:E; [|congruence].
    apply andb_prop in E as [I1 I2]. apply inb_true in I1, I2. rewrite (proj2 (reals_get l _)). replace (5 - 1 + m - 4) with m by lia.
    destruct (Z.leb_spec (Z.abs m) l); [|congruence]. intros _. lia.
  - intros _ l m. rewrite !G. replace (inb 9 (5 - 1 - m)) with (inb 9 (5 - 1 + m)) by (apply eq_true_iff_eq; rewrite !inb_true; lia).
    destruct (inb 5 l && inb 9 (5 - 1 + m)); [|rewrite Cconj_0; ring].
    rewrite (proj2 (reals_get l (5 - 1 - m))), (proj2 (reals_get l (5 - 1 + m))). replace (5 - 1 - m - 4) with (- m) by lia. replace (5 - 1 + m - 4) with m by lia. rewrite Z.abs_opp.
    destruct (Z.abs m <=? l); [|rewrite Cconj_0; ring].
    assert (Hs : sign_of (- m) = sign_of m) by (rewrite !sign_msgn; unfold msgn; now rewrite Z.even_opp).
    assert (S2 : (sign_of m * sign_of m = 1)%R) by (rewrite sign_msgn; unfold msgn; destruct (Z.even m); ring).
    destruct (Z.ltb_spec (5 - 1 - m) 4), (Z.ltb_spec (5 - 1 + m) 4); try lia.
    + rewrite Cconj_RtoC, Hs. ring.
    + rewrite Cconj_RtoC, <- RtoC_mult, S2. reflexivity.
    + assert (m = 0) as -> by lia. rewrite Cconj_RtoC, <- RtoC_mult. f_equal. cbn. ring.
Qed.
Lemma reals_numbers : numbers2 (bpow radix2 900) reals.
Proof.
  assert (B1 : (1 <= bpow radix2 900)%R) by (change 1%R with (bpow radix2 0); apply bpow_le; lia).
  intros i j Hi Hj. change (rows reals) with 5 in Hi. change (cols reals) with 9 in Hj. unfold reals. rewrite get2_mk by lia.
  destruct (reals_get i j) as [F ->]. split; [exact F|]. destruct (Z.abs (j - 4) <=? i); [|rewrite Cmod_0; lra]. destruct (j <? 4).
  - rewrite Cmod_R. destruct (sgn12 (j - 4)) as [-> | ->]; [rewrite Rabs_pos_eq|rewrite Rabs_left]; lra.
  - rewrite Cmod_1. exact B1.
Qed.
Lemma real3_facts : wigner 5 3 0 (vals3 real3) /\ numbers3 (bpow radix2 900) real3 /\ cval (get3 real3 2 2 5) = RtoC 1.
Proof.
  assert (B1 : (1 <= bpow radix2 900)%R) by (change 1%R with (bpow radix2 0); apply bpow_le; lia).
  assert (V : forall a l q, 0 <= a < 5 -> 0 <= l < 5 -> 0 <= q < 9 ->
    finite64 (get3 real3 a l q) /\ cval (get3 real3 a l q) = if (Z.even a) && (Z.abs (a - 2) <=? l) && (Z.abs (q - 4) <=? l) then RtoC 1 else RtoC 0).
  { intros a l q Ha Hl Hq. unfold real3. rewrite get3_mk by lia. destruct (_ && _ && _).
    - split; [apply fin_creal, fint_fin; lia|]. rewrite cval_creal, fint_B2R by lia. reflexivity.
    - split; [apply fin_creal, fint_fin; lia|]. reflexivity. }
  split; [|split].
  - repeat (split; [reflexivity|]). intros n l m. unfold vals3. cbn [get3 mk3]. change (dim0 real3) with 5. change (dim1 real3) with 5. change (dim2 real3) with 9.
    destruct (inb 5 (3 - 1 + n) && inb 5 l && inb 9 (5 - 1 + m)) eqn:E; [|intros H; exfalso; apply H; reflexivity].
    apply andb_prop in E as [E I3]. apply andb_prop in E as [I1 I2]. apply inb_true in I1, I2, I3.
    rewrite (proj2 (V _ _ _ I1 I2 I3)). replace (3 - 1 + n - 2) with n by lia. replace (5 - 1 + m - 4) with m by lia.
    destruct (Z.even _); cbn [andb]; [|congruence]. destruct (Z.leb_spec (Z.abs n) l); cbn [andb]; [|congruence]. destruct (Z.leb_spec (Z.abs m) l); [|congruence]. intros _. lia.
  - intros i j k Hi Hj Hk. destruct (V i j k Hi Hj Hk) as [F ->]. split; [exact F|]. destruct (_ && _ && _); [rewrite Cmod_1; exact B1|rewrite Cmod_0; lra].
  - apply (V 2 2 5); lia.
Qed.

(*% L = 5, N = 3, spin 0, scales 1 to 3, a real signal: every hypothesis of the first two theorems is met *)
(*@E C80_example *)
Lemma ex_c80 : exists fexp fpow flg O psi phi f flm w sc T S,
  accurate_loggamma flg /\ relative_exp fexp /\ accurate_exp fexp /\ exact_powers fpow 3 /\ j_max 5 2 = Ok 3 /\
  filters_directional_fp fexp fpow flg 3 5 3 1 (fint 2) 0 0 = Ok (psi, phi) /\ sampling_known MW None /\
  (forall j, LN_j 5 j 3 2 false = Ok (5, 3, 0)) /\ scal_bandlimit 5 1 2 false = Ok 5 /\
  fwd64 O f 5 0 MW None true = Ok flm /\ is_harmonic 5 0 true (vals2 flm) /\ numbers2 (bpow radix2 900) flm /\
  get2 (vals2 flm) 2 5 = RtoC 1 /\ get2 (vals2 flm) 2 3 = RtoC (-1) /\
  wavelet_shape_check_fp fpow 3 w sc 5 3 1 (fint 2) MW None false = Ok tt /\
  fwd64 O sc 5 0 MW None true = Ok S /\ harmonic 5 0 (vals2 S) /\ numbers2 (bpow radix2 900) S /\ get2 (vals2 S) 2 5 = RtoC 1 /\
  forall j, 1 <= j <= 3 -> (exists fj, lrd w (j - 1) = Ok fj /\ wfwd64 O fj 5 3 0 MW true None = Ok (T j)) /\
    wigner 5 3 0 (vals3 (T j)) /\ numbers3 (bpow radix2 900) (T j) /\ cval (get3 (T j) 2 2 5) = RtoC 1.
Proof.
  destruct j_max_5_2 as (EJ & _). pose proof (pow2_exact_powers 3 ltac:(lia)) as HP.
  destruct (fp2_dirf_total near_exp pow2 near_lg 3 5 3 1 0 0 ltac:(lia) ltac:(left; lia) ltac:(lia) HP) as [([psi phi] & E1) _].
  set (f := Nd64 [5; 9] (fun ix => match ix with [l; q] => reals_at 5 l q | _ => creal (fint 0) end)).
  set (y := Nd64 [5; 5; 9] (fun ix => match ix with [a; l; q] => if (Z.even a) && (Z.abs (a - 2) <=? l) && (Z.abs (q - 4) <=? l) then creal (fint 1) else creal (fint 0) | _ => creal (fint 0) end)).
  assert (SZ : forall j, LN_j 5 j 3 2 false = Ok (5, 3, 0)) by (intros j; apply (LN_j_ok 5 j 3 2 false); lra).
  assert (SL : scal_bandlimit 5 1 2 false = Ok 5) by (apply (scal_bandlimit_ok 5 1 2 false); lra).
  assert (V1 : get2 (vals2 reals) 2 5 = RtoC 1) by (rewrite get2_vals by (cbn; lia); unfold reals; rewrite get2_mk by lia; apply (reals_get 2 5)).
  assert (V2 : get2 (vals2 reals) 2 3 = RtoC (-1)).
  { rewrite get2_vals by (cbn; lia). unfold reals. rewrite get2_mk by lia. rewrite (proj2 (reals_get 2 3)). cbn [Z.abs Z.sub Z.leb Z.ltb Z.compare Z.add Z.opp Z.pos_sub Pos.compare Pos.compare_cont Pos.pred_double].
    rewrite sign_msgn. reflexivity. }
  destruct real3_facts as (W1 & W2 & W3).
  exists near_exp, pow2, near_lg, store, psi, phi, f, reals, [y; y; y], f, (fun _ => real3), reals.
  split; [apply near_loggamma|]. split; [apply near_relative|]. split; [apply near_accurate|]. split; [exact HP|]. split; [exact EJ|]. split; [exact E1|]. split; [exact I|].
  split; [exact SZ|]. split; [exact SL|].
  split; [reflexivity|]. split; [apply reals_harmonic|]. split; [apply reals_numbers|]. split; [exact V1|]. split; [exact V2|].
  split.
  { apply (chk64 pow2 3 [y; y; y] f 5 3 1 MW None false (fun _ => (5, 3, 0)) 5); auto; try lia.
    - exact I.
    - split; [reflexivity|]. split; [reflexivity|]. intros j fj Hj E. assert (j = 1 \/ j = 2 \/ j = 3) as [->|[->| ->]] by lia; apply Ok_inj in E; subst fj; reflexivity. }
  split; [reflexivity|]. split; [apply reals_harmonic|]. split; [apply reals_numbers|]. split; [exact V1|].
  intros j Hj. split; [|auto]. exists y. split; [|reflexivity]. assert (j = 1 \/ j = 2 \/ j = 3) as [->|[->| ->]] by lia; reflexivity.
Qed.

(*% L = 5, N = 3, spin 1, scales 1 to 3, multiresolution: the hypotheses of the round trip are met, and
    the coefficients of a signal whose coefficients are all 1 come back within 2/100 *)
(*@E C80_round_trip_example *)
Lemma ex_c80b : exists fexp fpow flg O flm f w sc g,
  accurate_loggamma flg /\ relative_exp fexp /\ accurate_exp fexp /\ exact_powers fpow 3 /\ j_max 5 2 = Ok 3 /\
  accurate64 true 0 O 5 1 MW None false /\ harmonic 5 1 (vals2 flm) /\ numbers2 1 flm /\ inv64 O flm 5 1 MW None false = Ok f /\
  analysis_looped_fp fexp fpow flg O 3 f 5 3 1 (fint 2) 1 0 MW None false true = Ok (w, sc) /\
  synthesis_looped_fp fexp fpow flg O 3 w sc 5 3 1 (fint 2) 1 0 MW None false true = inv64 O g 5 1 MW None false /\
  cval (get2 flm 2 5) = RtoC 1 /\ (Cmod (cval (get2 g 2 5) - RtoC 1)%C <= 2 / 100)%R.
Proof.
  destruct j_max_5_2 as (EJ & _). pose proof (pow2_exact_powers 3 ltac:(lia)) as HP.
  assert (HH : harmonic 5 1 (vals2 ones)).
  { split; [reflexivity|]. split; [reflexivity|]. intros l m Hne. unfold vals2 in Hne. cbn [get2 mk2] in Hne. change (rows ones) with 5 in Hne. change (cols ones) with 9 in Hne.
    destruct (inb 5 l && inb 9 (5 - 1 + m)) eqn:E; [|exfalso; apply Hne; reflexivity]. apply andb_prop in E as [I1 I2]. apply inb_true in I1, I2.
    rewrite (proj2 (ones_get l (5 - 1 + m) I1 I2)) in Hne. destruct ((1 <=? l) && (Z.abs (5 - 1 + m - 4) <=? l)) eqn:E; [|exfalso; apply Hne; reflexivity].
    apply andb_prop in E as [E1 E2]. apply Z.leb_le in E1, E2. replace (5 - 1 + m - 4) with m in E2 by lia. lia. }
  assert (NN : numbers2 1 ones).
  { intros i j Hi Hj. destruct (ones_get i j Hi Hj) as [F ->]. split; [exact F|]. destruct ((1 <=? i) && (Z.abs (j - 4) <=? i)); [rewrite Cmod_1|rewrite Cmod_0]; lra. }
  assert (B1 : (bpow radix2 (-900) <= 1 <= bpow radix2 780)%R) by (change 1%R with (bpow radix2 0); split; apply bpow_le; lia).
  destruct (rtl64 near_exp pow2 near_lg store 3 ones (Nd64 [5; 9] (fun ix => match ix with [l; q] => get2 ones l q | _ => creal (fint 0) end)) 5 3 1 1 MW None true 0 1
    ltac:(lia) ltac:(lia) ltac:(lia) near_loggamma near_relative near_accurate HP EJ ltac:(lia) ltac:(lra) B1 (store_accurate 5 1) HH NN eq_refl) as (w & sc & g & EA & ES & _ & G).
  exists near_exp, pow2, near_lg, store, ones, (Nd64 [5; 9] (fun ix => match ix with [l; q] => get2 ones l q | _ => creal (fint 0) end)), w, sc, g.
  split; [apply near_loggamma|]. split; [apply near_relative|]. split; [apply near_accurate|]. split; [exact HP|]. split; [exact EJ|]. split; [apply store_accurate|].
  split; [exact HH|]. split; [exact NN|]. split; [reflexivity|]. split; [exact EA|]. split; [exact ES|].
  assert (V : cval (get2 ones 2 5) = RtoC 1) by apply (ones_get 2 5 ltac:(lia) ltac:(lia)). split; [exact V|].
  destruct (G 2 5 ltac:(lia) ltac:(lia)) as [_ K]. rewrite V, Cmod_1 in K. pose proof quad_err2 as QE. eapply Rle_trans; [exact K|].
  assert (T2 : (bpow radix2 (-1000) <= bpow radix2 (-30))%R) by (apply bpow_le; lia). change (bpow radix2 (-30)) with (/ 1073741824)%R in *.
  rewrite Rmult_0_l, Rmult_0_l. lra.
Qed.

(*% the same for a real signal with coefficients 1 at the orders m >= 0 *)
(*@E C80_round_trip_real_example *)
Lemma ex_c80c : exists fexp fpow flg O flm f w sc g,
  accurate_loggamma flg /\ relative_exp fexp /\ accurate_exp fexp /\ exact_powers fpow 3 /\ j_max 5 2 = Ok 3 /\
  accurate64 true 0 O 5 0 MW None true /\ is_harmonic 5 0 true (vals2 flm) /\ numbers2 1 flm /\ inv64 O flm 5 0 MW None true = Ok f /\
  analysis_looped_fp fexp fpow flg O 3 f 5 3 1 (fint 2) 0 0 MW None true true = Ok (w, sc) /\
  synthesis_looped_fp fexp fpow flg O 3 w sc 5 3 1 (fint 2) 0 0 MW None true true = inv64 O g 5 0 MW None true /\
  cval (get2 flm 2 3) = RtoC (-1) /\ cval (get2 flm 2 5) = RtoC 1 /\ (Cmod (cval (get2 g 2 5) - RtoC 1)%C <= 2 / 100)%R.
Proof.
  destruct j_max_5_2 as (EJ & _). pose proof (pow2_exact_powers 3 ltac:(lia)) as HP.
  assert (NN : numbers2 1 reals).
  { intros i j Hi Hj. change (rows reals) with 5 in Hi. change (cols reals) with 9 in Hj. unfold reals. rewrite get2_mk by lia.
    destruct (reals_get i j) as [F ->]. split; [exact F|]. destruct (Z.abs (j - 4) <=? i); [|rewrite Cmod_0; lra]. destruct (j <? 4).
    - rewrite Cmod_R. destruct (sgn12 (j - 4)) as [-> | ->]; [rewrite Rabs_pos_eq|rewrite Rabs_left]; lra.
    - rewrite Cmod_1. lra. }
  assert (B1 : (bpow radix2 (-900) <= 1 <= bpow radix2 780)%R) by (change 1%R with (bpow radix2 0); split; apply bpow_le; lia).
  destruct (rtlr64 near_exp pow2 near_lg store 3 reals (Nd64 [5; 9] (fun ix => match ix with [l; q] => get2 reals l q | _ => creal (fint 0) end)) 5 3 1 0 MW None true 0 1
    ltac:(lia) ltac:(lia) ltac:(lia) near_loggamma near_relative near_accurate HP EJ ltac:(lia) ltac:(lra) B1 (store_accurate_r 5 0 true) reals_harmonic NN eq_refl) as (w & sc & g & EA & ES & _ & _ & G).
  exists near_exp, pow2, near_lg, store, reals, (Nd64 [5; 9] (fun ix => match ix with [l; q] => get2 reals l q | _ => creal (fint 0) end)), w, sc, g.
  split; [apply near_loggamma|]. split; [apply near_relative|]. split; [apply near_accurate|]. split; [exact HP|]. split; [exact EJ|]. split; [apply store_accurate_r|].
  split; [exact reals_harmonic|]. split; [exact NN|]. split; [reflexivity|]. split; [exact EA|]. split; [exact ES|].
  assert (V : cval (get2 reals 2 5) = RtoC 1) by (unfold reals; rewrite get2_mk by lia; apply (proj2 (reals_get 2 5))).
  split; [unfold reals; rewrite get2_mk by lia; rewrite (proj2 (reals_get 2 3)); change (RtoC (sign_of (-1)) = RtoC (-1)); f_equal; rewrite sign_msgn; reflexivity|].
  split; [exact V|].
  destruct (G 2 1 ltac:(lia) ltac:(lia)) as [_ K]. change (5 - 1 + 1) with 5 in K. rewrite V, Cmod_1 in K. pose proof quad_err2 as QE. eapply Rle_trans; [exact K|].
  assert (T2 : (bpow radix2 (-1000) <= bpow radix2 (-30))%R) by (apply bpow_le; lia). change (bpow radix2 (-30)) with (/ 1073741824)%R in *.
  rewrite Rmult_0_l, Rmult_0_l. lra.
Qed.
