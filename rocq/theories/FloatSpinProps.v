(** Statements and proofs for PropertiesFloatSpin.v *)

From Coq Require Import ZArith Reals List Bool Lia Lra Psatz Factorial.
From Coquelicot Require Import Rcomplements Complex.
From Flocq Require Import Core Relative IEEE754.BinarySingleNaN.
From Verif Require Import Py PyFacts ModelSamples SamplesFacts SamplesProps ModelFilters FiltersFacts DirectionFacts DirFilterFacts Spec SpecQuad FiltersProps.
From Verif Require Import ModelFloat ModelFloatDir FloatProps SpecFp SpecFpDir FloatFacts FloatFilterProps FloatDefault FloatAccProps FloatDirFacts FloatDirProps FloatDirFilterProps.
From Verif Require Import FloatFacts.
Import ListNotations.
Open Scope Z_scope.

(*T Spin-lowered filters in binary64 *)
(*! From Coq Require Import ZArith Reals List Bool. *)
(*! From Coquelicot Require Import Complex. *)
(*! From Flocq Require Import Core IEEE754.BinarySingleNaN. *)
(*! Import ListNotations. *)
(*! From Verif Require Import Py ModelSamples ModelFilters ModelFloat ModelFloatDir Spec SpecFp SpecFpDir. *)

Definition in_range (x : R) : Prop := (bpow radix2 (-800) <= x <= bpow radix2 800)%R.

Lemma factorial_pos z : (0 < factorial z)%R.
Proof. unfold factorial. apply lt_0_INR, lt_O_fact. Qed.
Lemma factorial_step z : 0 <= z -> factorial (z + 1) = (factorial z * IZR (z + 1))%R.
Proof.
  intros H. unfold factorial. replace (Z.to_nat (z + 1)) with (S (Z.to_nat z)) by lia. rewrite fact_simpl, mult_INR.
  rewrite (INR_IZR_INZ (S _)), Nat2Z.inj_succ, Z2Nat.id by lia. unfold Z.succ. ring.
Qed.
Lemma factorial_mono a b : 0 <= a <= b -> (factorial a <= factorial b)%R.
Proof. intros H. unfold factorial. apply le_INR, fact_le. lia. Qed.
Lemma ratio_opp l s : spin_ratio l (- s) = (/ spin_ratio l s)%R.
Proof.
  unfold spin_ratio. replace (l + - s) with (l - s) by lia. replace (l - - s) with (l + s) by lia.
  pose proof (factorial_pos (l + s)). pose proof (factorial_pos (l - s)). field. lra.
Qed.
Lemma ratio_pos' l s : (0 < spin_ratio l s)%R.
Proof. apply Rdiv_lt_0_compat; apply factorial_pos. Qed.
Lemma range_inv x : in_range x -> in_range (/ x).
Proof.
  intros [A B]. pose proof (bpow_gt_0 radix2 (-800)). unfold in_range. change (-800) with (- (800)) at 1. rewrite bpow_opp.
  replace (bpow radix2 800) with (/ bpow radix2 (-800))%R by (rewrite <- bpow_opp; reflexivity).
  split; apply Rinv_le_contravar; try lra.
  replace (/ bpow radix2 (-800))%R with (bpow radix2 800) by (rewrite <- bpow_opp; reflexivity). exact B.
Qed.

(** the product of the factors *)
Lemma factor_fa l s : Z.abs s <= l -> l + Z.abs s <= 2 ^ 53 -> Z.abs s <= 2 ^ 18 -> in_range (spin_ratio l (Z.abs s)) ->
  exists f, for_ (zrange (- Z.abs s + 1) (Z.abs s + 1)) (fint 1) (fun i factor => Ok (fmul factor (fint (l + i)))) = Ok f /\
    fa (2 * IZR (Z.abs s) * u1) f (spin_ratio l (Z.abs s)).
Proof.
  intros Hl Hl2 Hs [_ HR]. set (a := Z.abs s) in *. assert (Ha : 0 <= a) by lia. pose proof u1_pos as U.
  destruct (for_prog (fun i f => fa (IZR (i - 1 + a) * u1) f (factorial (l + i - 1) / factorial (l - a)))%R (- a + 1) (a + 1) (fint 1)
    (fun i factor => Ok (fmul factor (fint (l + i))))) as (f & E & Hf).
  - lia.
  - replace (l + (- a + 1) - 1) with (l - a) by lia. replace (- a + 1 - 1 + a) with 0 by lia. rewrite Rmult_0_l.
    replace (factorial (l - a) / factorial (l - a))%R with (IZR 1) by (pose proof (factorial_pos (l - a)); field; lra). apply fa_int. lia.
  - intros i f Hi Hf. eexists. split; [reflexivity|].
    replace (factorial (l + (i + 1) - 1) / factorial (l - a))%R with (factorial (l + i - 1) / factorial (l - a) * IZR (l + i))%R.
    2:{ replace (l + (i + 1) - 1) with (l + i - 1 + 1) by lia. rewrite factorial_step by lia. replace (l + i - 1 + 1) with (l + i) by lia. field.
        pose proof (factorial_pos (l - a)). lra. }
    assert (I : (0 <= IZR (i - 1 + a) <= 524288)%R) by (split; apply IZR_le; lia).
    replace (IZR (i + 1 - 1 + a) * u1)%R with (IZR (i - 1 + a) * u1 + 0 + u1)%R.
    2:{ replace (i + 1 - 1 + a) with (i - 1 + a + 1) by lia. rewrite (plus_IZR (i - 1 + a) 1). ring. }
    apply fa_mul; [|exact Hf|apply fa_int; lia|].
    + assert (u1 <= / 1000000)%R by lra. nra.
    + replace (factorial (l + i - 1) / factorial (l - a) * IZR (l + i))%R with (factorial (l + i) / factorial (l - a))%R.
      2:{ replace (l + i) with (l + i - 1 + 1) at 1 by lia. rewrite factorial_step by lia. replace (l + i - 1 + 1) with (l + i) by lia. field.
          pose proof (factorial_pos (l - a)). lra. }
      apply (nr _ 0 800); try lia. change (bpow radix2 0) with 1%R. pose proof (factorial_pos (l - a)) as P. split.
      * apply Rmult_le_reg_r with (factorial (l - a)); [exact P|]. unfold Rdiv. rewrite Rmult_assoc, Rinv_l, Rmult_1_r, Rmult_1_l by lra. apply factorial_mono. lia.
      * eapply Rle_trans; [|exact HR]. unfold spin_ratio. apply Rmult_le_compat_r; [left; now apply Rinv_0_lt_compat|]. apply factorial_mono. lia.
  - exists f. split; [exact E|]. replace (l + (a + 1) - 1) with (l + a) in Hf by lia. replace (a + 1 - 1 + a) with (2 * a) in Hf by lia.
    rewrite mult_IZR in Hf. exact Hf.
Qed.
Lemma sqrt_nr x : in_range x -> norm_range (sqrt x).
Proof. intros H. apply (nr _ (-800) 800); try lia. now apply sqrt_rng. Qed.

Lemma abs_ratio l s : in_range (spin_ratio l s) -> in_range (spin_ratio l (Z.abs s)).
Proof.
  intros H. destruct (Z.abs_spec s) as [[_ ->]|[_ ->]]; [exact H|]. rewrite ratio_opp. now apply range_inv.
Qed.

(*% ** C67: spin-lowered filters *)
(*% the normalisation, as long as its square does not leave the range of binary64 *)
Lemma snf_fa l s : Z.abs s <= l -> l + Z.abs s <= 2 ^ 53 -> Z.abs s <= 2 ^ 18 -> in_range (spin_ratio l s) ->
  spin_normalization_fp l s = Ok (snf l s) /\ fa ((IZR (Z.abs s) + 3 / 2) * u1) (snf l s) (sqrt (spin_ratio l s)).
Proof.
  intros Hl Hl2 Hs HR. pose proof u1_pos as U. destruct (factor_fa l s Hl Hl2 Hs (abs_ratio _ _ HR)) as (f & E & F).
  assert (I : (0 <= IZR (Z.abs s) <= 262144)%R) by (split; apply IZR_le; lia).
  assert (IU : (0 <= IZR (Z.abs s) * u1 <= / 3)%R) by (split; [apply Rmult_le_pos; lra|nra]).
  unfold snf, spin_normalization_fp. rewrite E. cbn [bind]. destruct (Z.ltb_spec 0 s) as [P|P].
  - split; [reflexivity|]. rewrite Z.abs_eq in F at 2 by lia. eapply fa_weak; [|apply fa_sqrt; [|exact F|now apply sqrt_nr]]; [lra|lra].
  - assert (ND : feq f (fint 0) = false).
    { apply feq_false; [apply F|reflexivity|]. change (B2R (fint 0)) with 0%R. destruct F as [_ (_ & G & _)]. pose proof (ratio_pos' l (Z.abs s)) as Q.
      pose proof (Rmult_lt_0_compat _ _ Q (exp_pos (- (2 * IZR (Z.abs s) * u1)))). lra. }
    rewrite pydiv_ok by exact ND. cbn [bind]. split; [reflexivity|].
    assert (R1 : (1 / spin_ratio l (Z.abs s) = spin_ratio l s)%R).
    { unfold Rdiv. rewrite Rmult_1_l, <- ratio_opp. f_equal. lia. }
    assert (D : fa (2 * IZR (Z.abs s) * u1 + u1) (fdiv (fint 1) f) (spin_ratio l s)).
    { rewrite <- R1. replace (2 * IZR (Z.abs s) * u1 + u1)%R with (0 + 2 * IZR (Z.abs s) * u1 + u1)%R by ring.
      apply fa_div; [lra|apply (fa_int 1); lia|exact F|apply ratio_pos'|]. rewrite R1. destruct HR. apply (nr _ (-800) 800); try lia. auto. }
    eapply fa_weak; [|apply fa_sqrt; [|exact D|now apply sqrt_nr]]; [lra|lra].
Qed.

(*@ C67_normalisation_accurate *)
Lemma fp_spin_norm : forall l s, Z.abs s <= l -> l + Z.abs s <= 2 ^ 53 -> Z.abs s <= 2 ^ 18 ->
  (bpow radix2 (-800) <= spin_ratio l s <= bpow radix2 800)%R ->
  exists w, spin_normalization_fp l s = Ok w /\ is_finite w = true /\
    (Rabs (B2R w - sqrt (spin_ratio l s)) <= (IZR (Z.abs s) + 2) * bpow radix2 (-51) * sqrt (spin_ratio l s))%R.
Proof.
  intros l s Hl Hl2 Hs HR. destruct (snf_fa l s Hl Hl2 Hs HR) as [E [F A]]. exists (snf l s). split; [exact E|]. split; [exact F|].
  assert (I : (0 <= IZR (Z.abs s) <= 262144)%R) by (split; apply IZR_le; lia). pose proof u1_pos as U.
  assert (IU : (0 <= (IZR (Z.abs s) + 3 / 2) * u1 <= / 2)%R) by (split; [apply Rmult_le_pos; lra|nra]).
  eapply Rle_trans; [apply (apx_abs _ _ _ IU A)|]. apply Rmult_le_compat_r; [apply sqrt_pos|].
  unfold u1, eps. change (bpow radix2 (-51)) with (/ 2251799813685248)%R. lra.
Qed.

(*% spins up to 7 stay in range at every multipole *)
(*@ C67_small_spins_in_range *)
Lemma fp_spin_range : forall l s, Z.abs s <= 7 -> Z.abs s <= l <= 2 ^ 52 ->
  (bpow radix2 (-800) <= spin_ratio l s <= bpow radix2 800)%R.
Proof.
  intros l s Hs Hl.
  assert (G : forall n : nat, l - Z.abs s + Z.of_nat n <= 2 ^ 53 ->
    (factorial (l - Z.abs s + Z.of_nat n) <= factorial (l - Z.abs s) * bpow radix2 (53 * Z.of_nat n))%R).
  { induction n as [|n IH]; intros Hn; [rewrite Z.add_0_r, Z.mul_0_r; change (bpow radix2 0) with 1%R; lra|].
    replace (l - Z.abs s + Z.of_nat (S n)) with (l - Z.abs s + Z.of_nat n + 1) by lia. rewrite factorial_step by lia.
    replace (53 * Z.of_nat (S n)) with (53 * Z.of_nat n + 53) by lia. rewrite bpow_plus, <- Rmult_assoc.
    apply Rmult_le_compat; [left; apply factorial_pos|apply IZR_le; lia|apply IH; lia|].
    change (bpow radix2 53) with (IZR (2 ^ 53)). apply IZR_le. lia. }
  assert (R : (1 <= spin_ratio l (Z.abs s) <= bpow radix2 800)%R).
  { unfold spin_ratio. pose proof (factorial_pos (l - Z.abs s)) as P. split.
    - apply Rmult_le_reg_r with (factorial (l - Z.abs s)); [exact P|]. unfold Rdiv. rewrite Rmult_assoc, Rinv_l, Rmult_1_r, Rmult_1_l by lra. apply factorial_mono. lia.
    - apply Rmult_le_reg_r with (factorial (l - Z.abs s)); [exact P|]. unfold Rdiv. rewrite Rmult_assoc, Rinv_l, Rmult_1_r by lra.
      specialize (G (Z.to_nat (2 * Z.abs s)) ltac:(lia)). rewrite !Z2Nat.id in G by lia. replace (l - Z.abs s + 2 * Z.abs s) with (l + Z.abs s) in G by lia.
      eapply Rle_trans; [exact G|]. rewrite Rmult_comm. apply Rmult_le_compat_r; [lra|]. apply bpow_le. lia. }
  assert (R' : in_range (spin_ratio l (Z.abs s))).
  { split; [|apply R]. apply Rle_trans with (2 := proj1 R). change 1%R with (bpow radix2 0). apply bpow_le. lia. }
  destruct (Z.abs_spec s) as [[_ E]|[_ E]]; rewrite E in R'; [exact R'|]. rewrite <- (Z.opp_involutive s), ratio_opp. now apply range_inv.
Qed.

(*% beyond the range it degenerates: at multipole 100 the normalisation for spin -100 is computed as zero, and for spin 100 as infinity *)
(*@ C67_large_spin_degenerates *)
Lemma fp_spin_big : (exists w, spin_normalization_fp 100 (-100) = Ok w /\ feq w (fint 0) = true) /\
  spin_normalization_fp 100 100 = Ok finf /\ (0 < sqrt (spin_ratio 100 (-100)))%R.
Proof.
  split; [|split].
  - assert (E : (match spin_normalization_fp 100 (-100) with Ok w => feq w (fint 0) | Err _ => false end) = true) by (vm_compute; reflexivity).
    destruct (spin_normalization_fp 100 (-100)) as [w|]; [|discriminate]. exists w. auto.
  - assert (E : (match spin_normalization_fp 100 100 with Ok (B754_infinity false) => true | _ => false end) = true) by (vm_compute; reflexivity).
    destruct (spin_normalization_fp 100 100) as [w|]; [|discriminate]. destruct w as [|[]| |]; try discriminate. reflexivity.
  - apply sqrt_lt_R0, ratio_pos'.
Qed.

(** ** the filters *)
Lemma rnd_opp x : rnd (- x) = (- rnd x)%R.
Proof. apply round_NE_opp. Qed.
Lemma fsgn_mul s w : is_finite w = true ->
  is_finite (fmul w (fsgn s)) = true /\ B2R (fmul w (fsgn s)) = (sign_of s * B2R w)%R.
Proof.
  intros F. unfold fsgn.
  assert (SE : sign_of s = if Z.even s then 1%R else (-1)%R).
  { rewrite sign_msgn. unfold msgn. reflexivity. }
  rewrite SE. destruct (Z.even s).
  - destruct (fmul_ok w (fint 1) F eq_refl) as [A B]; rewrite (fint_B2R 1) in * by lia; rewrite ?Rmult_1_r in *.
    + apply fin_lt.
    + split; [exact A|]. rewrite B, rnd_id. ring.
  - destruct (fmul_ok w (fint (-1)) F eq_refl) as [A B]; rewrite (fint_B2R (-1)) in * by lia; replace (B2R w * -1)%R with (- B2R w)%R in * by ring; rewrite rnd_opp in *.
    + rewrite Rabs_Ropp. apply fin_lt.
    + split; [exact A|]. rewrite B, rnd_id. ring.
Qed.
Lemma sgn_cases s : sign_of s = 1%R \/ sign_of s = (-1)%R.
Proof. rewrite sign_msgn. unfold msgn. destruct (Z.even s); auto. Qed.
Lemma mul_sgn e1 e2 y w Y W s : is_finite y = true -> apx e1 (B2R y) Y -> fa e2 w W -> norm_range (Y * W) -> (0 <= e1 + e2 <= 1)%R ->
  exists v, is_finite (fmul y (fmul w (fsgn s))) = true /\ B2R (fmul y (fmul w (fsgn s))) = (sign_of s * v)%R /\ apx (e1 + e2 + u1) v (Y * W).
Proof.
  intros Fy Ay [Fw Aw] NR He. destruct (fa_mul e1 e2 y w Y W He (conj Fy Ay) (conj Fw Aw) NR) as [F A].
  pose proof (apx_mul _ _ _ _ _ _ Ay Aw) as M. destruct (range_apx _ _ _ He M NR) as [_ O]. destruct (fmul_ok y w Fy Fw O) as [_ V].
  exists (B2R (fmul y w)). destruct (fsgn_mul s w Fw) as [Fq Vq].
  assert (G : rnd (B2R y * (sign_of s * B2R w)) = (sign_of s * rnd (B2R y * B2R w))%R).
  { destruct (sgn_cases s) as [-> | ->]; [now rewrite !Rmult_1_l|]. replace (B2R y * (-1 * B2R w))%R with (- (B2R y * B2R w))%R by ring. rewrite rnd_opp. ring. }
  destruct (fmul_ok y _ Fy Fq) as [A' B'].
  - rewrite Vq, G, Rabs_mult. replace (Rabs (sign_of s)) with 1%R; [now rewrite Rmult_1_l|]. destruct (sgn_cases s) as [-> | ->]; [now rewrite Rabs_R1|]. rewrite Rabs_left; lra.
  - split; [exact A'|]. split; [|exact A]. rewrite B', Vq, G, V. reflexivity.
Qed.
Lemma cmul_creal y q : is_finite (fst y) = true -> is_finite (snd y) = true -> is_finite q = true ->
  is_finite (fmul (fst y) q) = true -> is_finite (fmul (snd y) q) = true -> let p := cmul y (creal q) in
  (is_finite (fst p) = true /\ B2R (fst p) = B2R (fmul (fst y) q)) /\ (is_finite (snd p) = true /\ B2R (snd p) = B2R (fmul (snd y) q)).
Proof.
  intros F1 F2 Fq G1 G2. cbv zeta. unfold cmul, creal. cbn [fst snd].
  destruct (fmul_0r (fst y) F1) as [A1 B1]. destruct (fmul_0r (snd y) F2) as [A2 B2]. split; [now apply fsub_z|now apply fadd_z'].
Qed.
Lemma sqrt_ratio_rng x : in_range x -> (bpow radix2 (-400) <= sqrt x <= bpow radix2 400)%R.
Proof.
  intros [H1 H2]. pose proof (bpow_gt_0 radix2 (-800)). split.
  - apply Rsqr_incr_0_var; [|apply sqrt_pos]. rewrite Rsqr_sqrt by lra. unfold Rsqr. rewrite <- bpow_plus. exact H1.
  - apply Rsqr_incr_0_var; [|apply bpow_ge_0]. rewrite Rsqr_sqrt by lra. unfold Rsqr. rewrite <- bpow_plus. exact H2.
Qed.

Section NEAR.
Variables (fexp : f64 -> f64) (fpow : f64 -> Z -> f64) (flg : f64 -> f64).
Hypothesis Hg : accurate_loggamma flg.
Hypothesis He : relative_exp fexp.
Variables (J L N J_min : Z) (lam : f64) (spin spin0 : Z).
Hypothesis HL : 1 <= L <= 2 ^ 52.
Hypothesis HN : 1 <= N <= 41.
Hypothesis Hs0 : spin0 <> 0.
Hypothesis Hsb : Z.abs spin0 <= 2 ^ 18.
Variables (kpsi : arr2 f64) (kphi : arr1 f64) (psi : arr3 c64) (phi : arr1 f64).
Hypothesis EA : filters_axisym_fp fexp fpow J L J_min lam = Ok (kpsi, kphi).
Hypothesis ED : filters_directional_fp fexp fpow flg J L N J_min lam spin spin0 = Ok (psi, phi).
Let e := el_min spin spin0.
Let a := IZR (Z.abs spin0).

Lemma near_spin l : e <= l < L -> in_range (spin_ratio l spin0) ->
  (is_finite (get1 kphi l) = true -> exists v, is_finite (get1 phi l) = true /\ B2R (get1 phi l) = (sign_of spin0 * v)%R /\
     apx ((a + 6) * u1) v (cphi l * B2R (get1 kphi l) * sqrt (spin_ratio l spin0))) /\
  (forall j m, J_min <= j <= J -> Z.abs m < L -> is_finite (get2 kpsi j l) = true ->
     let z := get3 psi j l (L - 1 + m) in is_finite (fst z) = true /\ is_finite (snd z) = true /\
     exists v, apx ((a + 9) * u1) v (cpsi l * B2R (get2 kpsi j l) * Cmod (sd N l m) * sqrt (spin_ratio l spin0)) /\
       cval z = Cmult (nu N) (RtoC (sign_of spin0 * v))).
Proof.
  intros Hl HR. destruct (axisym_fp_inv _ _ _ _ _ _ _ _ EA) as (HJ & Rp & Cp & Lp & Tpsi & Tphi).
  assert (Habs : Z.abs e = e) by (unfold e, el_min; lia). assert (Hee : el_min e 0 = e) by (unfold el_min; lia).
  pose proof u1_pos as U. assert (Ia : (0 <= a <= 262144)%R) by (unfold a; split; apply IZR_le; lia).
  assert (IU : (0 <= a * u1 <= / 3)%R) by (split; [apply Rmult_le_pos; lra|nra]).
  destruct (snf_fa l spin0 ltac:(unfold e, el_min in Hl; lia) ltac:(unfold e, el_min in Hl; lia) Hsb HR) as [_ SF]. fold a in SF.
  pose proof (sqrt_ratio_rng _ HR) as SR. set (W := sqrt (spin_ratio l spin0)) in *. set (w := snf l spin0) in *.
  (* the filters of spin zero with the same cut-off *)
  pose proof (dir_fp_ok fexp fpow flg J L N J_min lam e 0 kpsi kphi ltac:(lia) ltac:(left; lia) ltac:(lia) ltac:(intros X; now destruct X) EA Rp Cp Lp) as E0.
  destruct (near_loop fexp fpow flg Hg He J L N J_min lam e HL HN kpsi kphi _ _ EA E0) as [NA NB]. rewrite Habs in NA, NB.
  rewrite (dir_fp_ok fexp fpow flg J L N J_min lam spin spin0 kpsi kphi) in ED; auto; try lia; try (left; lia).
  2:{ intros _ l' Hl'. apply snf_ok. unfold el_min in Hl'. lia. }
  apply Ok_inj in ED. assert (P1 := f_equal fst ED). assert (P2 := f_equal snd ED). cbn [fst snd] in P1, P2. rewrite <- P1, <- P2. clear P1 P2.
  assert (Z0 : is_finite (fint 0) = true /\ B2R (fint 0) = (sign_of spin0 * 0)%R) by (split; [reflexivity|rewrite Rmult_0_r; reflexivity]).
  split.
  - intros F. specialize (NA l Hl F). rewrite get1_mk in * by lia. destruct NA as [FA AA]. pose proof (Tphi l ltac:(lia)) as T.
    unfold phif in *. rewrite Hee in *. fold e. destruct (feq (get1 kphi l) (fint 0)) eqn:E.
    + cbn [negb andb] in *. rewrite andb_false_r. exists 0%R. split; [apply Z0|]. split; [apply Z0|]. apply feq0 in E; [|exact F]. rewrite E, Rmult_0_r, Rmult_0_l. apply apx_refl; nra.
    + replace (e <=? l) with true in * by zb. cbn [negb andb] in *. change (0 =? 0) with true in *. cbv iota zeta in *.
      replace (spin0 =? 0) with false by zb. fold w.
      destruct (mul_sgn (7 / 2 * u1) ((a + 3 / 2) * u1) _ w _ W spin0 FA AA SF) as (v & V1 & V2 & V3).
      * destruct (rt_range _ T F) as [TA TB]. rewrite (Rmult_comm (cphi l)), Rmult_assoc. pose proof (cphi_rng l ltac:(lia)) as CR.
        apply (nr_mul _ _ (-537) 512 (-410) 453); try lia; auto. pose proof (bpow_gt_0 radix2 (-10)). pose proof (bpow_gt_0 radix2 (-400)).
        split; [change (-410) with (-10 + -400)|change 453 with (53 + 400)]; rewrite bpow_plus; apply Rmult_le_compat; lra.
      * nra.
      * exists v. split; [exact V1|]. split; [exact V2|]. eapply apx_weak; [|exact V3]. lra.
  - intros j m Hj Hm F. specialize (NB j l m Hj Hl Hm F). cbv zeta in *. rewrite get3_mk in * by lia. replace (L - 1 + m - (L - 1)) with m in * by lia.
    destruct NB as (FA & FB & v & AV & VV). pose proof (Tpsi j l ltac:(lia) ltac:(lia)) as T.
    assert (ZC : (v = 0)%R -> is_finite (fst (creal (fint 0))) = true /\ is_finite (snd (creal (fint 0))) = true /\
       exists v, apx ((a + 9) * u1) v (cpsi l * B2R (get2 kpsi j l) * Cmod (sd N l m) * W) /\ cval (creal (fint 0)) = Cmult (nu N) (RtoC (sign_of spin0 * v))).
    { intros V0. split; [reflexivity|]. split; [reflexivity|]. exists 0%R. split; [|rewrite Rmult_0_r; apply creal0].
      assert (Y0 : (cpsi l * B2R (get2 kpsi j l) * Cmod (sd N l m) = 0)%R).
      { destruct AV as (AV1 & AV2 & _). pose proof (exp_pos (- (13 / 2 * u1))) as EP. rewrite V0 in AV2.
        destruct AV1 as [AV1|AV1]; [|auto]. pose proof (Rmult_lt_0_compat _ _ AV1 EP). lra. }
      rewrite Y0, Rmult_0_l. apply apx_refl; nra. }
    assert (V0 : cval (creal (fint 0)) = Cmult (nu N) (RtoC v) -> (v = 0)%R).
    { intros E. apply (f_equal Cmod) in E. rewrite Cmod_nur in E. replace (Cmod (cval (creal (fint 0)))) with 0%R in E by (symmetry; apply Cmod_0).
      destruct (Req_dec v 0) as [H|H]; [exact H|]. apply Rabs_pos_lt in H. lra. }
    unfold psif in *. rewrite Hee in *. fold e.
    match type of FA with context [if ?b then _ else _] => destruct b eqn:G end; [|exact (ZC (V0 VV))].
    change (0 =? 0) with true in *. replace (spin0 =? 0) with false by zb. cbv iota zeta in *. fold w.
    set (y := cmul (creal (fmul (wav_weight_fp l) (get2 kpsi j l))) (sdf flg fexp N l m)) in *. clearbody y.
    set (q := fmul w (fsgn spin0)) in *. destruct (fsgn_mul spin0 w (proj1 SF)) as [Fq _]. fold q in Fq.
    assert (NR : norm_range (cpsi l * B2R (get2 kpsi j l) * Cmod (sd N l m) * W)).
    { destruct (rt_range _ T F) as [TA TB]. pose proof (cpsi_rng l ltac:(lia)) as CR.
      assert (DR : (Cmod (sd N l m) = 0 \/ bpow radix2 (-20) <= Cmod (sd N l m) <= 1)%R).
      { unfold sd. destruct (Z.leb_spec 1 l); cbn [andb]; [|left; apply Cmod_0]. destruct (Z.leb_spec (Z.abs m) l); cbn [andb]; [|left; apply Cmod_0].
        destruct (dmask N m) eqn:D; [|left; apply Cmod_0]. right. rewrite Cmod_mult, Cmod_nu, Cmod_R, Rabs_pos_eq, Rmult_1_l by apply sqrt_pos.
        now apply dsq_lb. }
      destruct DR as [-> |DR]; [rewrite Rmult_0_r, Rmult_0_l; split; [now left|apply bpow_ge_0]|].
      replace (cpsi l * B2R (get2 kpsi j l) * Cmod (sd N l m) * W)%R with (B2R (get2 kpsi j l) * (cpsi l * (Cmod (sd N l m) * W)))%R by ring.
      apply (nr_mul _ _ (-537) 512 (-430) 453); try lia; auto. pose proof (bpow_gt_0 radix2 (-10)). pose proof (bpow_gt_0 radix2 (-400)). pose proof (bpow_gt_0 radix2 (-20)).
      assert (0 < bpow radix2 (-20) * bpow radix2 (-400))%R by now apply Rmult_lt_0_compat. split.
      - change (-430) with (-10 + (-20 + -400)). rewrite !bpow_plus. apply Rmult_le_compat; try lra. apply Rmult_le_compat; lra.
      - change 453 with (53 + 400). rewrite bpow_plus. apply Rmult_le_compat; try lra; [apply Rmult_le_pos; lra|]. rewrite <- (Rmult_1_l (bpow radix2 400)). apply Rmult_le_compat; lra. }
    assert (EU : (0 <= 13 / 2 * u1 + (a + 3 / 2) * u1 <= 1)%R) by nra.
    assert (Zm : forall t : f64, is_finite t = true -> B2R t = 0%R -> is_finite (fmul t q) = true /\ B2R (fmul t q) = 0%R).
    { intros t Ft T0. destruct (fmul_ok t q Ft Fq) as [A1 B1]; [rewrite T0, Rmult_0_l; apply small_rnd; rewrite Rabs_R0; lra|]. split; [exact A1|]. rewrite B1, T0, Rmult_0_l. apply rnd_0. }
    assert (VF := f_equal fst VV). assert (VS := f_equal snd VV). cbn [cval fst snd] in VF, VS. unfold nu in *.
    destruct (negb (N mod 2 =? 0)); cbn [Cmult fst snd RtoC Ci] in VF, VS.
    + assert (B1 : B2R (fst y) = v) by (etransitivity; [exact VF|ring]). assert (B2 : B2R (snd y) = 0%R) by (etransitivity; [exact VS|ring]).
      rewrite <- B1 in AV. destruct (mul_sgn _ _ _ w _ W spin0 FA AV SF NR EU) as (v' & W1 & W2 & W3). fold q in W1, W2.
      destruct (Zm _ FB B2) as [Z1 Z2]. destruct (cmul_creal y q FA FB Fq W1 Z1) as ((C1 & C2) & C3 & C4).
      split; [exact C1|]. split; [exact C3|]. exists v'. split; [eapply apx_weak; [|exact W3]; lra|].
      apply injective_projections; [eapply eq_trans; [exact (eq_trans C2 W2)|]|eapply eq_trans; [exact (eq_trans C4 Z2)|]]; cbn [Cmult fst snd RtoC Ci]; ring.
    + assert (B1 : B2R (fst y) = 0%R) by (etransitivity; [exact VF|ring]). assert (B2 : B2R (snd y) = v) by (etransitivity; [exact VS|ring]).
      rewrite <- B2 in AV. destruct (mul_sgn _ _ _ w _ W spin0 FB AV SF NR EU) as (v' & W1 & W2 & W3). fold q in W1, W2.
      destruct (Zm _ FA B1) as [Z1 Z2]. destruct (cmul_creal y q FA FB Fq Z1 W1) as ((C1 & C2) & C3 & C4).
      split; [exact C1|]. split; [exact C3|]. exists v'. split; [eapply apx_weak; [|exact W3]; lra|].
      apply injective_projections; [eapply eq_trans; [exact (eq_trans C2 Z2)|]|eapply eq_trans; [exact (eq_trans C4 W2)|]]; cbn [Cmult fst snd RtoC Ci]; ring.
Qed.
End NEAR.

(*% each coefficient against the exact product, including the sign and the normalisation of the spin *)
(*@ C67_coefficients_accurate *)
Lemma fp_spin_acc : forall fexp fpow flg J L N J_min lam spin spin0 kpsi kphi psi phi s,
  accurate_loggamma flg -> relative_exp fexp -> 1 <= L <= 2 ^ 52 -> 1 <= N <= 41 -> spin0 <> 0 -> Z.abs spin0 <= 2 ^ 18 ->
  filters_axisym_fp fexp fpow J L J_min lam = Ok (kpsi, kphi) -> filters_directional_fp fexp fpow flg J L N J_min lam spin spin0 = Ok (psi, phi) ->
  tiling_direction L N = Ok s ->
  forall l, Z.abs spin <= l -> Z.abs spin0 <= l < L -> (bpow radix2 (-800) <= spin_ratio l spin0 <= bpow radix2 800)%R ->
    let r := (sign_of spin0 * sqrt (spin_ratio l spin0))%R in
    (is_finite (get1 kphi l) = true -> let w := (r * (sqrt ((2 * IZR l + 1) / (4 * PI)) * B2R (get1 kphi l)))%R in
       is_finite (get1 phi l) = true /\ (Rabs (B2R (get1 phi l) - w) <= (IZR (Z.abs spin0) + 6) * bpow radix2 (-51) * Rabs w)%R) /\
    (forall j m, J_min <= j <= J -> Z.abs m < L -> is_finite (get2 kpsi j l) = true ->
       let w := (r * (sqrt ((2 * IZR l + 1) / (8 * PI ^ 2)) * B2R (get2 kpsi j l)))%R in
       let z := get3 psi j l (L - 1 + m) in let t := Cmult (RtoC w) (get2 s l (L - 1 + m)) in
       is_finite (fst z) = true /\ is_finite (snd z) = true /\ (Cmod (Cminus (cval z) t) <= (IZR (Z.abs spin0) + 9) * bpow radix2 (-51) * Cmod t)%R).
Proof.
  intros fexp fpow flg J L N J_min lam spin spin0 kpsi kphi psi phi s Hg He HL HN Hs0 Hsb EA ED ES l Hl1 Hl HR. cbv zeta.
  destruct (near_spin fexp fpow flg Hg He J L N J_min lam spin spin0 HL HN Hs0 Hsb kpsi kphi psi phi EA ED l ltac:(unfold el_min; lia) HR) as [NA NB].
  destruct (axisym_fp_inv _ _ _ _ _ _ _ _ EA) as (HJ & _). pose proof u1_pos as U.
  assert (Ia : (0 <= IZR (Z.abs spin0) <= 262144)%R) by (split; apply IZR_le; lia). set (a := IZR (Z.abs spin0)) in *.
  assert (IU : (0 <= a * u1 <= / 3)%R) by (split; [apply Rmult_le_pos; lra|nra]).
  assert (V6 : (0 <= (a + 6) * u1 <= / 2)%R) by lra. assert (V9 : (0 <= (a + 9) * u1 <= / 2)%R) by lra.
  assert (EC : (2 * IZR l + 1)%R = IZR (2 * l + 1)) by (rewrite plus_IZR, mult_IZR; reflexivity).
  unfold tiling_direction in ES. rewrite tiling_direction_with_ok in ES by (try apply loggamma_ok; lia). apply Ok_inj in ES. subst s. rewrite EC.
  assert (US : forall k, (0 <= k)%R -> (2 * ((a + k) * u1) <= (a + k) * bpow radix2 (-51))%R) by (intros k Hk; unfold u1, eps; change (bpow radix2 (-51)) with (/ 2251799813685248)%R; nra).
  set (W := sqrt (spin_ratio l spin0)) in *. assert (SA : Rabs (sign_of spin0) = 1%R) by (destruct (sgn_cases spin0) as [-> | ->]; [apply Rabs_R1|rewrite Rabs_left; lra]).
  split.
  - intros F. fold (cphi l). destruct (NA F) as (v & A & B & C). split; [exact A|]. assert (W0 : (0 <= cphi l * B2R (get1 kphi l) * W)%R) by apply C.
    rewrite B. replace (sign_of spin0 * W * (cphi l * B2R (get1 kphi l)))%R with (sign_of spin0 * (cphi l * B2R (get1 kphi l) * W))%R by ring.
    rewrite <- Rmult_minus_distr_l, !Rabs_mult, SA, !Rmult_1_l, <- !Rabs_mult. rewrite (Rabs_pos_eq (cphi l * _ * W)) by exact W0.
    eapply Rle_trans; [apply (apx_abs _ _ _ V6 C)|]. apply Rmult_le_compat_r; [exact W0|]. apply US. lra.
  - intros j m Hj Hm F. replace (8 * PI ^ 2)%R with (8 * PI * PI)%R by ring. fold (cpsi l).
    destruct (NB j m Hj Hm F) as (A & B & v & C & D). split; [exact A|]. split; [exact B|]. cbv zeta in D. rewrite D.
    unfold s_arr. rewrite get2_mk by lia. replace (L - 1 + m - (L - 1)) with m by lia. rewrite (sd_nu N l m).
    set (w := (cpsi l * B2R (get2 kpsi j l))%R) in *. set (r := Cmod (sd N l m)) in *.
    replace (Cmult (RtoC (sign_of spin0 * W * w)) (Cmult (nu N) (RtoC r))) with (Cmult (nu N) (RtoC (sign_of spin0 * (w * r * W)))) by (rewrite !RtoC_mult; ring).
    replace (Cminus (Cmult (nu N) (RtoC (sign_of spin0 * v))) (Cmult (nu N) (RtoC (sign_of spin0 * (w * r * W))))) with (Cmult (nu N) (RtoC (sign_of spin0 * (v - w * r * W)))) by (rewrite !RtoC_mult, RtoC_minus, !RtoC_mult; ring).
    rewrite !Cmod_nur, !(Rabs_mult (sign_of spin0)), SA, !Rmult_1_l. assert (W0 : (0 <= w * r * W)%R) by apply C. rewrite (Rabs_pos_eq (w * r * W)) by exact W0.
    eapply Rle_trans; [apply (apx_abs _ _ _ V9 C)|]. apply Rmult_le_compat_r; [exact W0|]. apply US. lra.
Qed.

(*% the normalised squares sum to (l+s)!/(l-s)! times those of the axisymmetric filters *)
(*@ C67_total *)
Lemma fp_spin_total : forall fexp fpow flg J L N J_min lam spin spin0 kpsi kphi psi phi,
  accurate_loggamma flg -> relative_exp fexp -> 1 <= L <= 2 ^ 52 -> 1 <= N <= 41 -> spin0 <> 0 -> Z.abs spin0 <= 2 ^ 18 ->
  filters_axisym_fp fexp fpow J L J_min lam = Ok (kpsi, kphi) -> filters_directional_fp fexp fpow flg J L N J_min lam spin spin0 = Ok (psi, phi) ->
  forall l, Z.abs spin <= l -> Z.abs spin0 <= l < L -> (bpow radix2 (-800) <= spin_ratio l spin0 <= bpow radix2 800)%R ->
    is_finite (get1 kphi l) = true -> (forall j, J_min <= j <= J -> is_finite (get2 kpsi j l) = true) ->
    let t := (spin_ratio l spin0 * fp_total kpsi kphi J_min J l)%R in
    (Rabs (fp_dir_total L psi phi J_min J l - t) <= (IZR (Z.abs spin0) + 9) * bpow radix2 (-50) * t)%R.
Proof.
  intros fexp fpow flg J L N J_min lam spin spin0 kpsi kphi psi phi Hg He HL HN Hs0 Hsb EA ED l Hl1 Hl HR F0 F1. cbv zeta.
  destruct (near_spin fexp fpow flg Hg He J L N J_min lam spin spin0 HL HN Hs0 Hsb kpsi kphi psi phi EA ED l ltac:(unfold el_min; lia) HR) as [NA NB].
  destruct (axisym_fp_inv _ _ _ _ _ _ _ _ EA) as (HJ & _). pose proof u1_pos as U. pose proof pi34 as P4.
  assert (Ia : (0 <= IZR (Z.abs spin0) <= 262144)%R) by (split; apply IZR_le; lia). set (a := IZR (Z.abs spin0)) in *.
  assert (IU : (0 <= a * u1 <= / 8)%R) by (split; [apply Rmult_le_pos; lra|unfold u1, eps; lra]).
  assert (V9 : (0 <= 2 * (a + 9) * u1 <= / 2)%R) by lra.
  assert (EC : (2 * IZR l + 1)%R = IZR (2 * l + 1)) by (rewrite plus_IZR, mult_IZR; reflexivity).
  assert (C0 : (0 < IZR (2 * l + 1))%R) by (apply IZR_lt; lia).
  assert (W2 : spin_ratio l spin0 = (sqrt (spin_ratio l spin0) ^ 2)%R) by (rewrite pow2_sqrt; [reflexivity|left; apply ratio_pos']).
  set (W := sqrt (spin_ratio l spin0)) in *. assert (SQ : forall v, ((sign_of spin0 * v) ^ 2 = v ^ 2)%R) by (intros v; destruct (sgn_cases spin0) as [-> | ->]; ring).
  assert (A : apx (2 * (a + 9) * u1) (fp_dir_total L psi phi J_min J l) (spin_ratio l spin0 * fp_total kpsi kphi J_min J l)).
  { unfold fp_dir_total, dir_total, fp_total. rewrite get1_mk by lia. rewrite EC, W2, (Rmult_plus_distr_l (W ^ 2)). apply apx_add.
    - destruct (NA F0) as (v & _ & B & C). rewrite B, SQ. apply apx_sq in C.
      replace (W ^ 2 * B2R (get1 kphi l) ^ 2)%R with (4 * PI / IZR (2 * l + 1) * (cphi l * B2R (get1 kphi l) * W) ^ 2)%R.
      2:{ rewrite !Rpow_mult_distr. unfold cphi. rewrite (pow2_sqrt (_ / _)) by (left; apply Rdiv_lt_0_compat; lra). field. split; lra. }
      replace (2 * (a + 9) * u1)%R with (6 * u1 + (2 * ((a + 6) * u1)))%R by ring. apply apx_mul; [|exact C]. apply apx_refl; [lra|]. left. apply Rdiv_lt_0_compat; lra.
    - replace (2 * (a + 9) * u1)%R with (0 + 2 * (a + 9) * u1)%R by ring.
      replace (W ^ 2 * zrsum (J - J_min + 1) (fun i => B2R (get2 kpsi (J_min + i) l) ^ 2)%R)%R
        with (8 * PI ^ 2 / IZR (2 * l + 1) * zrsum (J - J_min + 1) (fun i => (cpsi l * B2R (get2 kpsi (J_min + i) l) * W) ^ 2)%R)%R.
      2:{ rewrite !zrsum_mul. apply zrsum_ext. intros i Hi. rewrite !Rpow_mult_distr. unfold cpsi. rewrite (pow2_sqrt (_ / _)).
          - field. split; lra.
          - left. apply Rdiv_lt_0_compat; [exact C0|]. pose proof pi8_rng. lra. }
      apply apx_mul; [apply apx_refl; [lra|]; left; apply Rdiv_lt_0_compat; [|exact C0]; nra|].
      rewrite sumZ_zrsum by lia. replace (J + 1 - J_min) with (J - J_min + 1) by lia. apply apx_zrsum. intros i Hi.
      rewrite sumZ_zrsum by lia. replace (l + 1 - - l) with (2 * l + 1) by lia.
      replace ((cpsi l * B2R (get2 kpsi (J_min + i) l) * W) ^ 2)%R
        with (zrsum (2 * l + 1) (fun k => (cpsi l * B2R (get2 kpsi (J_min + i) l) * W) ^ 2 * Cmod (sd N l (k - l)) ^ 2)%R).
      2:{ rewrite <- zrsum_mul. rewrite (sd_norm N l) by lia. ring. }
      apply apx_zrsum. intros k Hk. rewrite get3_mk by lia.
      destruct (NB (J_min + i) (- l + k) ltac:(lia) ltac:(lia) (F1 (J_min + i) ltac:(lia))) as (_ & _ & v & C & D). cbv zeta in D. rewrite D, Cmod_nur, pow2_abs, SQ.
      replace (2 * (a + 9) * u1)%R with (2 * ((a + 9) * u1))%R by ring. replace (- l + k) with (k - l) in C by lia.
      rewrite <- Rpow_mult_distr. replace (cpsi l * B2R (get2 kpsi (J_min + i) l) * W * Cmod (sd N l (k - l)))%R with (cpsi l * B2R (get2 kpsi (J_min + i) l) * Cmod (sd N l (k - l)) * W)%R by ring. now apply apx_sq. }
  set (t := (spin_ratio l spin0 * fp_total kpsi kphi J_min J l)%R) in *. assert (T0 : (0 <= t)%R) by apply A.
  eapply Rle_trans; [apply (apx_abs _ _ _ V9 A)|]. apply Rmult_le_compat_r; [exact T0|].
  unfold u1, eps. change (bpow radix2 (-50)) with (/ 1125899906842624)%R. nra.
Qed.

(*% with lam = 2 every coefficient of the spin-lowered filters is a number *)
(*@ C67_default_dilation_finite *)
Lemma fp2_spin_finite : forall fexp fpow flg J L N J_min spin spin0 psi phi, 1 <= L <= 2 ^ 52 -> 1 <= N <= 41 -> Z.abs spin0 <= 7 -> spin0 <> 0 ->
  accurate_loggamma flg -> relative_exp fexp -> accurate_exp fexp -> exact_powers fpow J -> j_max L 2 = Ok J ->
  filters_directional_fp fexp fpow flg J L N J_min (fint 2) spin spin0 = Ok (psi, phi) ->
  forall l, Z.abs spin <= l -> Z.abs spin0 <= l < L ->
    is_finite (get1 phi l) = true /\
    forall j m, J_min <= j <= J -> Z.abs m < L -> is_finite (fst (get3 psi j l (L - 1 + m))) = true /\ is_finite (snd (get3 psi j l (L - 1 + m))) = true.
Proof.
  intros fexp fpow flg J L N J_min spin spin0 psi phi HL HN Hs7 Hs0 Hg Hr Hf HP EJ ED l Hl1 Hl.
  pose proof ED as ED'. unfold filters_directional_fp in ED'. apply bind_inv in ED' as (z & Z1 & ED'). apply bind_inv in ED' as (z' & Z2 & ED').
  apply bind_inv in ED' as ([kpsi kphi] & EA & _).
  destruct (near_spin fexp fpow flg Hg Hr J L N J_min (fint 2) spin spin0 HL HN Hs0 ltac:(lia) kpsi kphi psi phi EA ED l ltac:(unfold el_min; lia) (fp_spin_range l spin0 Hs7 ltac:(lia))) as [NA NB].
  destruct (fin2 fexp fpow J L J_min kpsi kphi ltac:(lia) Hf HP EJ (or_introl EA)) as (HJ & F0 & F1 & _). split.
  - destruct (NA (F0 l ltac:(lia))) as (v & A & _). exact A.
  - intros j m Hj Hm. destruct (NB j m Hj Hm (F1 j l Hj ltac:(lia))) as (A & B & _). split; [exact A|exact B].
Qed.

(*% lam = 2, L = 5, N = 3, spin 0 with reference spin 2: the normalisation at multipole 3 is sqrt(120) within 2^-49, relatively *)
(*@E C67_example *)
Lemma ex_fp_spin : exists fexp fpow flg psi phi w, accurate_loggamma flg /\ relative_exp fexp /\ accurate_exp fexp /\ exact_powers fpow 3 /\ j_max 5 2 = Ok 3 /\
  filters_directional_fp fexp fpow flg 3 5 3 0 (fint 2) 0 2 = Ok (psi, phi) /\ is_finite (get1 phi 3) = true /\
  spin_normalization_fp 3 2 = Ok w /\ (Rabs (B2R w - sqrt 120) <= bpow radix2 (-49) * sqrt 120)%R.
Proof.
  destruct j_max_5_2 as (EJ & _). pose proof (pow2_exact_powers 3 ltac:(lia)) as HP.
  destruct (fp2_dirf_total near_exp pow2 near_lg 3 5 3 0 0 2 ltac:(lia) ltac:(left; lia) ltac:(lia) HP) as [([psi phi] & E1) _].
  destruct (fp2_spin_finite near_exp pow2 near_lg 3 5 3 0 0 2 psi phi ltac:(lia) ltac:(lia) ltac:(lia) ltac:(lia) near_loggamma near_relative near_accurate HP EJ E1 3 ltac:(lia) ltac:(lia)) as [F _].
  destruct (fp_spin_norm 3 2 ltac:(lia) ltac:(lia) ltac:(lia) (fp_spin_range 3 2 ltac:(lia) ltac:(lia))) as (w & W1 & W2 & W3).
  exists near_exp, pow2, near_lg, psi, phi, w. split; [apply near_loggamma|]. split; [apply near_relative|]. split; [apply near_accurate|].
  split; [exact HP|]. split; [exact EJ|]. split; [exact E1|]. split; [exact F|]. split; [exact W1|].
  replace (spin_ratio 3 2) with 120%R in W3 by (unfold spin_ratio, factorial; change (fact (Z.to_nat (3 + 2))) with 120%nat; change (fact (Z.to_nat (3 - 2))) with 1%nat; rewrite !INR_IZR_INZ; change (Z.of_nat 120) with 120; change (Z.of_nat 1) with 1; lra).
  eapply Rle_trans; [exact W3|]. apply Rmult_le_compat_r; [apply sqrt_pos|]. change (Z.abs 2) with 2.
  change (bpow radix2 (-51)) with (/ 2251799813685248)%R. change (bpow radix2 (-49)) with (/ 562949953421312)%R. lra.
Qed.
