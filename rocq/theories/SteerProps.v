(** Statements and proofs for PropertiesSteer.v *)

From Coq Require Import ZArith Reals List Bool Lia Lra FunctionalExtensionality Classical_Prop.
From Coquelicot Require Import Rcomplements Complex.
From Verif Require Import Py PyFacts ModelSamples SamplesFacts ModelFilters Spec SpecTransforms SpecSteer
  FiltersFacts AxisymFacts DirectionFacts DirFilterFacts FiltersProps TransformsFacts ReconFacts FrameProps SamplesProps.
Import ListNotations.
Open Scope Z_scope.

(*T Directional structure of the filters: steerability and auto-correlation *)
(*! From Coq Require Import ZArith Reals List Bool. *)
(*! From Coquelicot Require Import Complex. *)
(*! From Verif Require Import Py ModelSamples ModelFilters Spec SpecTransforms SpecSteer. *)

(** ** trigonometric sums *)

Lemma cos_cos a b : (cos a * cos b = (cos (a + b) + cos (a - b)) / 2)%R.
Proof. rewrite cos_plus, cos_minus. field. Qed.
Lemma cos_sin a b : (cos a * sin b = (sin (a + b) - sin (a - b)) / 2)%R.
Proof. rewrite sin_plus, sin_minus. field. Qed.

Lemma sin_2kpi x q : sin (x - 2 * IZR q * PI) = sin x.
Proof.
  destruct (Z_le_gt_dec 0 q) as [H|H].
  - rewrite <- (sin_period (x - 2 * IZR q * PI) (Z.to_nat q)). rewrite INR_IZR_INZ, Z2Nat.id by lia. f_equal. ring.
  - rewrite <- (sin_period x (Z.to_nat (- q))). rewrite INR_IZR_INZ, Z2Nat.id by lia. rewrite opp_IZR. f_equal. ring.
Qed.

Lemma sumZ_telescope n (T : Z -> R) : 0 <= n -> sumZ 0 n (fun k => T k - T (k + 1)%Z)%R = (T 0%Z - T n)%R.
Proof.
  intros Hn. pattern n. apply natlike_ind; [| |exact Hn].
  - rewrite sumZ_nil by lia. ring.
  - intros x Hx IH. unfold Z.succ. rewrite sumZ_S, IH by lia. ring.
Qed.
Lemma sumZ_const n (c : R) : 0 <= n -> sumZ 0 n (fun _ => c) = (IZR n * c)%R.
Proof.
  intros Hn. pattern n. apply natlike_ind; [| |exact Hn].
  - rewrite sumZ_nil by lia. ring.
  - intros x Hx IH. unfold Z.succ. rewrite sumZ_S, IH by lia. rewrite plus_IZR. ring.
Qed.
Lemma sumZ_one n k f : 0 <= k < n -> (forall i, 0 <= i < n -> i <> k -> f i = 0%R) -> sumZ 0 n f = f k.
Proof.
  intros Hk H. rewrite (sumZ_split 0 k n), (sumZ_split k (k + 1) n) by lia.
  rewrite (sumZ_zero 0 k) by (intros; apply H; lia). rewrite (sumZ_zero (k + 1) n) by (intros; apply H; lia).
  rewrite sumZ_S, sumZ_nil by lia. ring.
Qed.

Lemma cos_sin_shift x : cos (PI / 2 + x) = (- sin x)%R.
Proof. rewrite cos_plus, cos_PI2, sin_PI2. ring. Qed.

(** sum of cosines at N equispaced angles *)
Lemma cos_roots N q p : 1 <= N -> Z.abs q < N ->
  sumZ 0 N (fun k => cos (p - 2 * IZR q * (IZR k * PI / IZR N)))%R = (if q =? 0 then IZR N * cos p else 0)%R.
Proof.
  intros HN Hq. assert (HN' : (0 < IZR N)%R) by (apply (IZR_lt 0); lia). pose proof PI_RGT_0 as Hpi.
  destruct (Z.eqb_spec q 0) as [->|Hq0].
  - rewrite <- (sumZ_const N (cos p)) by lia. apply sumZ_ext. intros k Hk. f_equal. ring.
  - set (d := (IZR q * PI / IZR N)%R).
    assert (Hs : sin d <> 0%R).
    { assert (P : forall z, 0 < z < N -> (0 < sin (IZR z * PI / IZR N))%R).
      { intros z Hz. assert (0 < IZR z)%R by (apply (IZR_lt 0); lia). assert (IZR z < IZR N)%R by (apply IZR_lt; lia).
        apply sin_gt_0; [apply Rdiv_lt_0_compat; nra|]. apply Rmult_lt_reg_r with (IZR N); [lra|].
        unfold Rdiv. rewrite Rmult_assoc, Rinv_l by lra. nra. }
      destruct (Z_lt_le_dec 0 q).
      - pose proof (P q ltac:(lia)). fold d in H. lra.
      - pose proof (P (- q) ltac:(lia)) as H. rewrite opp_IZR in H.
        replace (- IZR q * PI / IZR N)%R with (- d)%R in H by (unfold d; field; lra). rewrite sin_neg in H. lra. }
    apply Rmult_eq_reg_l with (2 * sin d)%R; [|lra]. rewrite Rmult_0_r, <- sumZ_mul.
    set (T := fun k => sin (p + d - 2 * IZR k * d)%R).
    rewrite (sumZ_ext 0 N _ (fun k => T k - T (k + 1)%Z)%R).
    + rewrite sumZ_telescope by lia. unfold T.
      replace (p + d - 2 * IZR N * d)%R with (p + d - 2 * IZR q * PI)%R by (unfold d; field; lra).
      rewrite sin_2kpi. replace (p + d - 2 * 0 * d)%R with (p + d)%R by ring. ring.
    + intros k Hk. unfold T. rewrite plus_IZR.
      replace (p - 2 * IZR q * (IZR k * PI / IZR N))%R with (p - 2 * IZR k * d)%R by (unfold d; field; lra).
      set (a := (p - 2 * IZR k * d)%R). replace (p + d - 2 * IZR k * d)%R with (a + d)%R by (unfold a; ring).
      replace (p + d - 2 * (IZR k + 1) * d)%R with (a - d)%R by (unfold a; ring). rewrite sin_plus, sin_minus. ring.
Qed.

Section Steer.
Variables (N m : Z) (g : R).
Hypothesis (HN : 1 <= N) (Hm : Z.abs m < N) (Hp : Z.even (m - (N - 1)) = true).
Let ang (k : Z) := (IZR k * PI / IZR N)%R.
Let od (t : Z) := 2 * t - (N - 1).

Lemma inner p q0 : Z.abs q0 < N -> Z.even (q0 - (N - 1)) = true ->
  sumZ 0 N (fun t => sumZ 0 N (fun k => cos (p + IZR (od t) * g - IZR (od t - q0) * ang k)))%R
  = (IZR N * cos (p + IZR q0 * g))%R.
Proof.
  intros Hq He. apply Z.even_spec in He. destruct He as [s Hs].
  rewrite (sumZ_one N (s + (N - 1))).
  - replace (od (s + (N - 1))) with q0 by (unfold od; lia).
    rewrite (sumZ_ext 0 N _ (fun _ => cos (p + IZR q0 * g))%R), sumZ_const by (try lia; intros k Hk; f_equal; rewrite Z.sub_diag; ring). reflexivity.
  - lia.
  - intros t Ht Hne.
    rewrite (sumZ_ext 0 N _ (fun k => cos (p + IZR (od t) * g - 2 * IZR (t - s - (N - 1)) * (IZR k * PI / IZR N)))%R).
    + rewrite cos_roots by lia. destruct (Z.eqb_spec (t - s - (N - 1)) 0); [lia|reflexivity].
    + intros k Hk. unfold ang. f_equal. f_equal. rewrite <- (mult_IZR 2). do 2 f_equal. unfold od. lia.
Qed.

Lemma even_opp : Z.even (- m - (N - 1)) = true.
Proof. apply Z.even_spec in Hp. destruct Hp as [s Hs]. apply Z.even_spec. exists (- s - (N - 1)). lia. Qed.

Lemma steer_trig p :
  sumZ 0 N (fun k => steer_weight N (g - ang k) * cos (p + IZR m * ang k))%R = cos (p + IZR m * g)%R.
Proof.
  assert (HN' : (0 < IZR N)%R) by (apply (IZR_lt 0); lia). unfold steer_weight.
  rewrite (sumZ_ext 0 N _ (fun k => / IZR N * (sumZ 0 N (fun t => cos (p + IZR (od t) * g - IZR (od t - m) * ang k))
      + sumZ 0 N (fun t => cos (- p + IZR (od t) * g - IZR (od t - - m) * ang k))) * / 2)%R).
  - rewrite sumZ_mulr, sumZ_mul, sumZ_plus.
    rewrite (sumZ_swap 0 N 0 N (fun k t => cos (p + IZR (od t) * g - IZR (od t - m) * ang k)%R)).
    rewrite (sumZ_swap 0 N 0 N (fun k t => cos (- p + IZR (od t) * g - IZR (od t - - m) * ang k)%R)).
    rewrite (inner p m Hm Hp), (inner (- p) (- m)) by (try lia; apply even_opp).
    replace (- p + IZR (- m) * g)%R with (- (p + IZR m * g))%R by (rewrite opp_IZR; ring). rewrite cos_neg. field. lra.
  - intros k Hk. rewrite <- sumZ_plus. unfold Rdiv.
    match goal with |- (?a * / _ * ?c)%R = _ => replace (a * / IZR N * c)%R with (/ IZR N * (a * c))%R by ring end.
    rewrite <- sumZ_mulr. rewrite Rmult_assoc. f_equal. rewrite <- sumZ_mulr. apply sumZ_ext. intros t Ht.
    fold (od t). rewrite cos_cos. unfold Rdiv. f_equal. f_equal.
    + f_equal. rewrite minus_IZR. ring.
    + f_equal. rewrite minus_IZR, opp_IZR. ring.
Qed.
End Steer.

Lemma csumZ_pair n f : 0 <= n -> csumZ 0 n f = (sumZ 0 n (fun k => fst (f k)), sumZ 0 n (fun k => snd (f k))).
Proof.
  intros Hn. pattern n. apply natlike_ind; [| |exact Hn].
  - rewrite csumZ_nil, !sumZ_nil by lia. reflexivity.
  - intros x Hx IH. unfold Z.succ. rewrite csumZ_S, !sumZ_S, IH by lia. reflexivity.
Qed.

(*% ** C52: the wavelets are steerable *)
(*% a wavelet rotated by any angle is a fixed real combination of the wavelets at N equispaced angles *)
(*@ C52_steerable *)
Lemma steerable : forall L N lam J_min J spin spin0 psi phi, 1 <= L -> 1 <= N -> (1 < lam)%R ->
  is_filters L N J_min lam spin spin0 psi phi -> j_max L lam = Ok J ->
  forall g j l m, 0 <= j <= J -> 0 <= l < L -> Z.abs m < L ->
  rotated L psi g j l m
  = csumZ 0 N (fun k => Cmult (RtoC (steer_weight N (g - IZR k * PI / IZR N))) (rotated L psi (IZR k * PI / IZR N) j l m)).
Proof.
  intros L N lam J_min J spin spin0 psi phi HL HN Hl HF EJ g j l m Hj Hll Hm. unfold rotated.
  destruct (vanish_spin L N lam J_min J spin spin0 psi phi HL HN Hl HF EJ l Hll) as [_ HV]. specialize (HV j m Hj Hm).
  set (z := get3 psi j l (L - 1 + m)) in *.
  destruct (Z_lt_le_dec (Z.abs m) N) as [HmN|HmN]; [destruct (Z.even (m - (N - 1))) eqn:He|].
  - rewrite (csumZ_ext 0 N _ (fun k => Cmult (Cmult (RtoC (steer_weight N (g - IZR k * PI / IZR N))) (cis (- (IZR m * (IZR k * PI / IZR N))))) z))
      by (intros k Hk; ring).
    rewrite csumZ_mulr. f_equal. rewrite csumZ_pair by lia. unfold cis. cbn [fst snd Cmult RtoC].
    apply injective_projections; cbn [fst snd].
    + rewrite (sumZ_ext 0 N _ (fun k => steer_weight N (g - IZR k * PI / IZR N) * cos (0 + IZR m * (IZR k * PI / IZR N)))%R).
      * rewrite (steer_trig N m g HN HmN He 0). rewrite cos_neg. f_equal. ring.
      * intros k Hk. rewrite cos_neg, Rplus_0_l. ring.
    + rewrite (sumZ_ext 0 N _ (fun k => steer_weight N (g - IZR k * PI / IZR N) * cos (PI / 2 + IZR m * (IZR k * PI / IZR N)))%R).
      * rewrite (steer_trig N m g HN HmN He (PI / 2)). rewrite sin_neg, <- cos_sin_shift. reflexivity.
      * intros k Hk. rewrite sin_neg, cos_sin_shift. ring.
  - rewrite HV by tauto. rewrite csumZ_zero by (intros; ring). ring.
  - rewrite HV by (right; right; right; left; lia). rewrite csumZ_zero by (intros; ring). ring.
Qed.

(*@E C52_example *)
Lemma ex_steer : exists psi phi, filters_directional 5 3 1 2 0 0 = Ok (psi, phi) /\ j_max 5 2 = Ok 3 /\
  (forall g j l m, 0 <= j <= 3 -> 0 <= l < 5 -> Z.abs m < 5 ->
   rotated 5 psi g j l m
   = csumZ 0 3 (fun k => Cmult (RtoC (steer_weight 3 (g - IZR k * PI / 3))) (rotated 5 psi (IZR k * PI / 3) j l m))) /\
  exists j m, 1 <= j <= 3 /\ Z.abs m <= 4 /\ get3 psi j 4 (5 - 1 + m) <> RtoC 0.
Proof.
  destruct ex_dir_adm as (psi & phi & E & H1). destruct j_max_5_2 as (EJ & _). exists psi, phi.
  split; [exact E|]. split; [exact EJ|]. split.
  { intros g j l m Hj Hl Hm. apply (steerable 5 3 2 1 3 0 0 psi phi); auto; try lia; try lra. now left. }
  apply NNPP. intros HN. specialize (H1 4 ltac:(lia)). unfold dir_total in H1.
  assert (P0 : get1 phi 4 = 0%R).
  { destruct (Req_dec (get1 phi 4) 0) as [|Hne]; auto. exfalso.
    destruct (supp_scal 5 3 2 1 0 0 psi phi ltac:(lia) ltac:(lia) ltac:(lra) (or_introl E) 4 _ ltac:(lia)
      (scal_bandlimit_ok 5 1 2 true ltac:(lra)) Hne) as [H _]. simpl in H. lra. }
  rewrite P0, sumZ_zero in H1; [lra|]. intros j Hj. apply sumZ_zero. intros m Hm.
  destruct (Ceq_dec (get3 psi j 4 (5 - 1 + m)) (RtoC 0)) as [->|Hne]; [rewrite Cmod_0; ring|].
  exfalso. apply HN. exists j, m. repeat split; auto; lia.
Qed.

(*% ** C53: directional auto-correlation *)

Lemma rsum_mulr n f c : rsum n (fun k => f k * c)%R = (rsum n f * c)%R.
Proof. induction n; cbn [rsum]; [ring|]. rewrite IHn. ring. Qed.

Lemma cos_binomial n x : rsum (S n) (fun k => INR (pascal_tri n k) * cos ((2 * INR k - INR n) * x))%R = (2 ^ n * cos x ^ n)%R.
Proof.
  induction n.
  - cbn. replace ((2 * 0 - 0) * x)%R with 0%R by ring. rewrite cos_0. ring.
  - rewrite rsum_shift.
    rewrite (rsum_ext (S n) _ (fun k => INR (pascal_tri n k) * cos ((2 * INR k - INR n) * x + x)
       + INR (pascal_tri n (S k)) * cos ((2 * INR (S k) - INR n) * x - x))%R).
    2:{ intros k Hk. cbn [pascal_tri]. rewrite plus_INR, !S_INR, Rmult_plus_distr_r.
        replace ((2 * INR k - INR n) * x + x)%R with ((2 * (INR k + 1) - (INR n + 1)) * x)%R by ring.
        replace ((2 * (INR k + 1) - INR n) * x - x)%R with ((2 * (INR k + 1) - (INR n + 1)) * x)%R by ring. reflexivity. }
    rewrite rsum_plus.
    assert (E : (INR (pascal_tri (S n) 0) * cos ((2 * INR 0 - INR (S n)) * x)
                + rsum (S n) (fun k => INR (pascal_tri n (S k)) * cos ((2 * INR (S k) - INR n) * x - x))
                = rsum (S n) (fun k => INR (pascal_tri n k) * cos ((2 * INR k - INR n) * x - x)))%R).
    { rewrite (rsum_shift n (fun k => INR (pascal_tri n k) * cos ((2 * INR k - INR n) * x - x))%R).
      change (rsum (S n) (fun k => INR (pascal_tri n (S k)) * cos ((2 * INR (S k) - INR n) * x - x)))%R
        with (rsum n (fun k => INR (pascal_tri n (S k)) * cos ((2 * INR (S k) - INR n) * x - x))
              + INR (pascal_tri n (S n)) * cos ((2 * INR (S n) - INR n) * x - x))%R.
      rewrite (tri_out n (S n)) by lia. rewrite !tri_0, (S_INR n). change (INR 0) with 0%R. rewrite Rmult_0_l, Rplus_0_r.
      replace ((2 * 0 - (INR n + 1)) * x)%R with ((2 * 0 - INR n) * x - x)%R by ring. reflexivity. }
    rewrite <- Rplus_assoc, (Rplus_comm (INR _ * _)), Rplus_assoc, E, <- rsum_plus.
    rewrite (rsum_ext (S n) _ (fun k => (INR (pascal_tri n k) * cos ((2 * INR k - INR n) * x)) * (2 * cos x))%R).
    2:{ intros k Hk. rewrite cos_plus, cos_minus. ring. }
    rewrite rsum_mulr, IHn. cbn [pow]. ring.
Qed.

Lemma sd_cos N el x : 1 <= N -> 1 <= el ->
  sumZ (- el) (el + 1) (fun m => Cmod (sd N el m) ^ 2 * cos (IZR m * x))%R = (cos x ^ Z.to_nat (gam N el))%R.
Proof.
  intros HN Hel. pose proof (gam_range N el HN Hel) as [Hg Hg']. set (g := gam N el) in *.
  assert (Z0 : forall m, g < Z.abs m <= el -> (Cmod (sd N el m) ^ 2 * cos (IZR m * x) = 0)%R).
  { intros m Hm. rewrite sd_sq. destruct (_ && _) eqn:E; [|ring]. exfalso.
    apply andb_true_iff in E as [E1 E2]. apply andb_true_iff in E1 as [_ E1]. apply Z.leb_le in E1.
    destruct (gam_mask N el m) as [B _]; auto. fold g in B. lia. }
  rewrite (sumZ_split (- el) (- g) (el + 1)), (sumZ_split (- g) (g + 1) (el + 1)) by lia.
  rewrite (sumZ_zero (- el)) by (intros; apply Z0; lia). rewrite (sumZ_zero (g + 1)) by (intros; apply Z0; lia).
  rewrite Rplus_0_l, Rplus_0_r, sumZ_zrsum. replace (g + 1 - - g) with (2 * g + 1) by lia.
  set (gn := Z.to_nat g).
  rewrite (zrsum_ext _ _ (fun i => if Z.even i
     then (INR (pascal_tri gn (gn - Z.to_nat (i / 2))) / 2 ^ gn * cos (IZR (2 * (i / 2) - g) * x))%R else 0%R)).
  2:{ intros i Hi. cbv beta. replace (- g + i) with (i - g) by lia. rewrite sd_sq.
      replace (1 <=? el) with true by zb. replace (Z.abs (i - g) <=? el) with true by zb.
      cbn [andb]. destruct (Z.even i) eqn:Ev.
      - apply Z.even_spec in Ev. destruct Ev as [k ->].
        rewrite (Z.mul_comm 2 k), Z.div_mul, (Z.mul_comm k 2) by lia. f_equal.
        replace (2 * k - g) with (g - 2 * (g - k)) by lia.
        unfold g at 1. rewrite gam_mask_inv by (auto; fold g; lia). unfold dsq. fold g.
        replace (g - (g - 2 * (g - k))) with ((g - k) * 2) by lia. rewrite Z.div_mul by lia.
        fold gn. do 3 f_equal. unfold gn. lia.
      - destruct (dmask N (i - g)) eqn:Ed; [|ring]. exfalso.
        destruct (gam_mask N el (i - g)) as (_ & k & Hk & _); auto; try lia. fold g in Hk.
        assert (Z.even i = true); [|congruence]. apply Z.even_spec. exists (g - k). lia. }
  rewrite (zrsum_even g (fun k => INR (pascal_tri gn (gn - Z.to_nat k)) / 2 ^ gn * cos (IZR (2 * k - g) * x))%R) by lia.
  assert (Hp : (2 ^ gn <> 0)%R) by (apply pow_nonzero; lra).
  rewrite (zrsum_ext _ _ (fun k => / 2 ^ gn * (INR (pascal_tri gn (Z.to_nat k)) * cos (IZR (2 * k - g) * x)))%R).
  2:{ intros k Hk. rewrite tri_sym by (unfold gn; lia). field. exact Hp. }
  rewrite <- zrsum_mul. unfold zrsum. replace (Z.to_nat (g + 1)) with (S gn) by (unfold gn; lia).
  rewrite (rsum_ext _ _ (fun k => INR (pascal_tri gn k) * cos ((2 * INR k - INR gn) * x))%R).
  - rewrite cos_binomial. field. exact Hp.
  - intros k Hk. rewrite Nat2Z.id, minus_IZR, mult_IZR, !INR_IZR_INZ. unfold gn. now rewrite Z2Nat.id by lia.
Qed.

Lemma gam_exponent N l : gam N l = directional_exponent N l.
Proof.
  unfold gam, directional_exponent.
  replace (negb ((N + l) mod 2 =? 0)) with (Z.even (l - (N - 1))); [reflexivity|].
  rewrite Zmod_even. replace (l - (N - 1)) with (N + l + 1 + 2 * (- N)) by lia.
  rewrite Z.even_add_mul_2, Z.even_add. destruct (Z.even (N + l)); reflexivity.
Qed.

Lemma psi_shape L N lam J_min J spin spin0 psi phi : 1 <= L -> 1 <= N -> (1 < lam)%R ->
  is_filters L N J_min lam spin spin0 psi phi -> j_max L lam = Ok J ->
  forall j l, 0 <= j <= J -> 0 <= l < L -> exists c : R, forall m, Z.abs m < L ->
  get3 psi j l (L - 1 + m) = Cmult (RtoC c) (sd N l m).
Proof.
  intros HL HN Hl HF EJ j l Hj Hll.
  assert (G : forall F J_lo s0, exists c : R, forall m, Z.abs m < L ->
    get3 (psid F L N J_lo J spin s0) j l (L - 1 + m) = Cmult (RtoC c) (sd N l m)).
  { intros F J_lo s0. unfold psid. destruct ((J_lo <=? j) && (el_min spin s0 <=? l)) eqn:B.
    - exists (cpsi l * F j l * wsp s0 l)%R. intros m Hm. rewrite get3_mk by lia. rewrite B.
      now replace (L - 1 + m - (L - 1)) with m by lia.
    - exists 0%R. intros m Hm. rewrite get3_mk by lia. rewrite B. ring. }
  assert (HF' : filters_directional L N J_min lam spin spin0 = Ok (psi, phi) \/
               filters_directional_vectorised L N J_min lam spin spin0 = Ok (psi, phi)).
  { destruct HF as [E|[E|E]]; auto. right. destruct (Z.eq_dec spin0 0) as [->|Hs].
    - now apply jax_to_vec.
    - rewrite spin_fail_jax in E by assumption. discriminate. }
  destruct HF' as [E|E].
  - destruct (inv_dir lam L J_min Hl HL N spin spin0 psi phi HN E) as (J1 & EJ1 & HJ & -> & _).
    assert (J1 = J) as -> by (eapply same_J; eauto). apply G.
  - destruct (inv_dvec lam L J_min Hl HL N spin spin0 psi phi HN E) as (J1 & EJ1 & HJ & _ & -> & _).
    assert (J1 = J) as -> by (eapply same_J; eauto). apply G.
Qed.

Lemma csumZ_parts lo hi f : csumZ lo hi f = (sumZ lo hi (fun k => fst (f k)), sumZ lo hi (fun k => snd (f k))).
Proof.
  destruct (Z_le_gt_dec lo hi) as [H|H]; [|rewrite csumZ_nil, !sumZ_nil by lia; reflexivity].
  replace lo with (0 + lo) by lia. replace hi with (hi - lo + lo) by lia.
  rewrite csumZ_shift, !sumZ_shift. apply csumZ_pair. lia.
Qed.
Lemma sumZ_odd l f : (forall m, Z.abs m <= l -> f (- m) = (- f m)%R) -> sumZ (- l) (l + 1) f = 0%R.
Proof.
  intros H. assert (E : sumZ (- l) (l + 1) f = (- sumZ (- l) (l + 1) f)%R); [|lra].
  rewrite sumZ_zrsum at 1. rewrite zrsum_rev.
  replace (- sumZ (- l) (l + 1) f)%R with (-1 * sumZ (- l) (l + 1) f)%R by ring. rewrite <- sumZ_mul, sumZ_zrsum.
  apply zrsum_ext. intros i Hi. replace (- l + (l + 1 - - l - 1 - i)) with (- (- l + i)) by lia. rewrite H by lia. ring.
Qed.
Lemma sd_mod_opp N l m : 1 <= N -> 1 <= l -> Z.abs m <= l -> Cmod (sd N l (- m)) = Cmod (sd N l m).
Proof.
  intros HN Hl Hm. assert (E : (Cmod (sd N l (- m)) ^ 2 = Cmod (sd N l m) ^ 2)%R).
  { rewrite !sd_sq, dmask_opp, Z.abs_opp. destruct (_ && _) eqn:B; [|reflexivity].
    apply andb_true_iff in B as [_ B]. now apply dsq_opp. }
  pose proof (Cmod_ge_0 (sd N l (- m))). pose proof (Cmod_ge_0 (sd N l m)). nra.
Qed.
Lemma Cmod2_conj' z : RtoC (Cmod z ^ 2) = Cmult (Cconj z) z.
Proof.
  destruct z as [a b]. unfold Cmod. cbn [fst snd]. rewrite pow2_sqrt by nra.
  apply injective_projections; cbn [fst snd Cmult Cconj RtoC]; ring.
Qed.

(*@ C53_component_autocorrelation *)
Lemma component_autocorrelation : forall L N s, 1 <= L -> 1 <= N -> tiling_direction L N = Ok s ->
  forall l x, 1 <= l < L ->
  sumZ (- l) (l + 1) (fun m => Cmod (get2 s l (L - 1 + m)) ^ 2 * cos (IZR m * x))%R
  = (cos x ^ Z.to_nat (directional_exponent N l))%R.
Proof.
  intros L N s HL HN E l x Hll. unfold tiling_direction in E. rewrite tiling_direction_with_ok in E by (auto; apply loggamma_ok).
  apply Ok_inj in E. subst s. rewrite <- gam_exponent, <- (sd_cos N l x) by lia. apply sumZ_ext. intros m Hm.
  unfold s_arr. rewrite get2_mk by lia. now replace (L - 1 + m - (L - 1)) with m by lia.
Qed.

(*% the same for the wavelets: correlating a wavelet with itself rotated by x gives, degree by degree, its energy times a
   power of cos x *)
(*@ C53_wavelet_autocorrelation *)
Lemma wavelet_autocorrelation : forall L N lam J_min J spin spin0 psi phi, 1 <= L -> 1 <= N -> (1 < lam)%R ->
  is_filters L N J_min lam spin spin0 psi phi -> j_max L lam = Ok J ->
  forall j l x, 0 <= j <= J -> 1 <= l < L ->
  csumZ (- l) (l + 1) (fun m => Cmult (Cconj (get3 psi j l (L - 1 + m))) (rotated L psi x j l m))
  = RtoC (cos x ^ Z.to_nat (directional_exponent N l)
          * sumZ (- l) (l + 1) (fun m => Cmod (get3 psi j l (L - 1 + m)) ^ 2))%R.
Proof.
  intros L N lam J_min J spin spin0 psi phi HL HN Hl HF EJ j l x Hj Hll.
  destruct (psi_shape L N lam J_min J spin spin0 psi phi HL HN Hl HF EJ j l Hj ltac:(lia)) as (c & Hc).
  rewrite (csumZ_ext (- l) (l + 1) _ (fun m => Cmult (RtoC (c ^ 2)) (Cmult (RtoC (Cmod (sd N l m) ^ 2)) (cis (- (IZR m * x)))))).
  - rewrite (sumZ_ext (- l) (l + 1) _ (fun m => c ^ 2 * Cmod (sd N l m) ^ 2)%R).
    + rewrite csumZ_mul, sumZ_mul. rewrite csumZ_parts. rewrite (sumZ_ext (- l) (l + 1) (fun m => fst _) (fun m => Cmod (sd N l m) ^ 2 * cos (IZR m * x))%R).
      2:{ intros m _. unfold cis. cbn [fst snd Cmult RtoC]. rewrite cos_neg. ring. }
      rewrite sd_cos by lia. rewrite (sumZ_odd l).
      2:{ intros m Hm. unfold cis. cbn [fst snd Cmult RtoC]. rewrite opp_IZR, sd_mod_opp by lia.
          replace (- (- IZR m * x))%R with (IZR m * x)%R by ring. rewrite sin_neg. ring. }
      replace (sumZ (- l) (l + 1) (fun m => Cmod (sd N l m) ^ 2))%R with 1%R.
      2:{ rewrite sumZ_zrsum. rewrite <- (sd_norm N l HN) by lia. replace (l + 1 - - l) with (2 * l + 1) by lia.
          apply zrsum_ext. intros i Hi. now replace (- l + i) with (i - l) by lia. }
      rewrite gam_exponent. apply injective_projections; cbn [fst snd Cmult RtoC]; ring.
    + intros m Hm. rewrite Hc by lia. rewrite Cmod_mult, Cmod_R, Rpow_mult_distr, pow2_abs. reflexivity.
  - intros m Hm. unfold rotated. rewrite Hc by lia. rewrite Cmult_conj, Cconj_RtoC.
    rewrite (Cmod2_conj' (sd N l m)).
    replace (RtoC (c ^ 2)) with (Cmult (RtoC c) (RtoC c)) by (rewrite <- RtoC_mult; f_equal; ring). ring.
Qed.

(*@E C53_example *)
Lemma ex_autocorrelation : exists s, tiling_direction 5 3 = Ok s /\
  forall x, sumZ (-3) 4 (fun m => Cmod (get2 s 3 (5 - 1 + m)) ^ 2 * cos (IZR m * x))%R = (cos x ^ 2)%R.
Proof.
  destruct (dir_component 5 3) as (s & E & _); try lia. exists s. split; [exact E|]. intros x.
  exact (component_autocorrelation 5 3 s ltac:(lia) ltac:(lia) E 3 x ltac:(lia)).
Qed.
