(** * Reconstruction in harmonic space *)

From Coq Require Import ZArith Reals List Bool Lia Lra.
From Coquelicot Require Import Rcomplements Complex.
From Verif Require Import Py PyFacts ModelSamples SamplesFacts ModelFilters ModelTransforms Spec
  FiltersFacts AxisymFacts DirectionFacts DirFilterFacts FiltersProps TransformsFacts BackendFacts LoopFacts.
Import ListNotations.
Open Scope Z_scope.

Lemma Ceq0_dec (x : C) : {x = RtoC 0} + {x <> RtoC 0}.
Proof. apply Ceq_dec. Qed.

(** a harmonic array is in normal form *)
Lemma harmonic_eta L spin flm : harmonic L spin flm -> flm = mk2 L (2 * L - 1) (get2 flm).
Proof.
  intros (H1 & H2 & H). rewrite <- H2 at 1. rewrite <- H1 at 1. apply mk2_eta. intros i q Hi.
  destruct (Ceq0_dec (get2 flm i q)) as [|Hne]; auto. exfalso.
  replace q with (L - 1 + (q - (L - 1))) in Hne by lia. apply H in Hne.
  rewrite !inb_in in Hi by lia. discriminate.
Qed.
Lemma wigner_eta L N L0 a : wigner L N L0 a -> a = mk3 (2 * N - 1) L (2 * L - 1) (get3 a).
Proof.
  intros (H0 & H1 & H2 & H). rewrite <- H2 at 1. rewrite <- H1 at 1. rewrite <- H0 at 1.
  apply mk3_eta. intros i j k Hi.
  destruct (Ceq0_dec (get3 a i j k)) as [|Hne]; auto. exfalso.
  replace i with (N - 1 + (i - (N - 1))) in Hne by lia.
  replace k with (L - 1 + (k - (L - 1))) in Hne by lia. apply H in Hne.
  rewrite !inb_in in Hi by lia. discriminate.
Qed.
Lemma harmonic_ext L spin a b : harmonic L spin a -> harmonic L spin b ->
  (forall l m, 0 <= l < L -> Z.abs m <= l -> get2 a l (L - 1 + m) = get2 b l (L - 1 + m)) -> a = b.
Proof.
  intros Ha Hb E. rewrite (harmonic_eta _ _ _ Ha), (harmonic_eta _ _ _ Hb).
  apply mk2_ext. intros l q Hl Hq. replace q with (L - 1 + (q - (L - 1))) by lia.
  set (m := q - (L - 1)). destruct (Z_le_dec (Z.abs m) l) as [|Hm]; auto.
  destruct (Ceq0_dec (get2 a l (L - 1 + m))) as [->|Hne]; [|apply Ha in Hne; lia].
  destruct (Ceq0_dec (get2 b l (L - 1 + m))) as [->|Hne]; [|apply Hb in Hne; lia]. reflexivity.
Qed.

Lemma csumZ_RtoC lo hi f : csumZ lo hi (fun i => RtoC (f i)) = RtoC (sumZ lo hi f).
Proof.
  rewrite csumZ_zcsum, sumZ_zrsum. unfold zcsum, zrsum.
  induction (Z.to_nat (hi - lo)) as [|k IH]; [reflexivity|]. simpl. rewrite IH.
  now rewrite <- RtoC_plus.
Qed.
Lemma csumZ_mulr lo hi f c : csumZ lo hi (fun i => Cmult (f i) c) = Cmult (csumZ lo hi f) c.
Proof.
  rewrite (csumZ_ext _ _ _ (fun i => Cmult c (f i))) by (intros; ring). rewrite csumZ_mul. ring.
Qed.
Lemma Cmult_conj x y : Cconj (Cmult x y) = Cmult (Cconj x) (Cconj y).
Proof. destruct x, y. apply injective_projections; simpl; ring. Qed.
Lemma Cconj_conj x : Cconj (Cconj x) = x.
Proof. destruct x. apply injective_projections; simpl; ring. Qed.
Lemma Cmod2_conj z : Cmult (Cconj z) z = RtoC (Cmod z ^ 2).
Proof.
  rewrite Cmult_comm. unfold Cmod. rewrite pow2_sqrt.
  - destruct z as [x y]. unfold Cmult, Cconj, RtoC. simpl. f_equal; ring.
  - destruct z as [x y]. simpl. apply Rplus_le_le_0_compat; apply pow2_ge_0 || (simpl; nra).
Qed.
Lemma sumZ_widen lo lo' hi' hi f : lo <= lo' <= hi' -> hi' <= hi ->
  (forall i, lo <= i < hi -> ~ (lo' <= i < hi') -> f i = 0%R) -> sumZ lo hi f = sumZ lo' hi' f.
Proof.
  intros H1 H2 H. rewrite (sumZ_split lo lo' hi), (sumZ_split lo' hi' hi) by lia.
  rewrite (sumZ_zero lo lo'), (sumZ_zero hi' hi) by (intros; apply H; lia). ring.
Qed.

Lemma two_l1 l : 0 <= l -> (IZR (2 * l + 1) = 2 * IZR l + 1)%R /\ (0 < 2 * IZR l + 1)%R.
Proof.
  intros Hl. rewrite plus_IZR, mult_IZR. split; [reflexivity|].
  assert (0 <= IZR l)%R by (apply (IZR_le 0); lia). lra.
Qed.

Section Recon.
Variables (L N J_min J spin : Z) (lam : R) (mr : bool).
Hypothesis HL : 1 <= L.
Hypothesis HN : 1 <= N <= L.
Hypothesis Hlam : (1 < lam)%R.
Hypothesis EJ : j_max L lam = Ok J.
Hypothesis HJ : 0 <= J_min <= J.
Variables (psi : arr3 C) (phi : arr1 R).

Notation Lj j := (Lj_of L j lam mr).
Notation Nj j := (Nj_of L j N lam mr).
Notation L0 j := (L0_of j lam mr).
Notation Ls := (Ls_of L J_min lam mr).
Notation lam0 := (lam0 lam Hlam).
Notation sz_facts := (sz_facts L N J lam mr HL HN Hlam EJ).

(** what is used of the filters *)
Definition psi_supp : Prop := forall j l n, 0 <= j <= J -> 0 <= l < L -> Z.abs n < L ->
  get3 psi j l (L - 1 + n) <> RtoC 0 ->
  Z.abs n <= l /\ L0 j <= l < Lj j /\ Z.abs n < Nj j /\ Z.even (n - (Nj j - 1)) = true /\
  Z.abs spin <= l.
Definition phi_supp : Prop := forall l, 0 <= l < L -> get1 phi l <> 0%R -> l < Ls /\ Z.abs spin <= l.
Hypothesis Hpsi : psi_sh L J psi.
Hypothesis Hphi : len1 phi = L.
Hypothesis Spsi : psi_supp.
Hypothesis Sphi : phi_supp.

Lemma wc_get flm j a l b : 0 <= a < 2 * Nj j - 1 -> 0 <= l < Lj j -> 0 <= b < 2 * Lj j - 1 ->
  get3 (wc L N lam mr psi flm j) a l b
  = if Z.even (a - (Nj j - 1) - (Nj j - 1)) && (L0 j <=? l)
    then Cmult (RtoC (8 * PI ^ 2 / (2 * IZR l + 1)))
               (Cmult (get2 flm l (L - 1 + (b - (Lj j - 1))))
                      (Cconj (get3 psi j l (L - 1 + (a - (Nj j - 1))))))
    else RtoC 0.
Proof. intros. unfold wc, wavelet_coefs. now rewrite get3_mk. Qed.

Lemma mk3_nz {A} `{Zeroed A} n m p f i j k : get3 (mk3 n m p f) i j k <> zero ->
  0 <= i < n /\ 0 <= j < m /\ 0 <= k < p.
Proof.
  simpl. destruct (inb n i) eqn:E1; cbn [andb]; [|congruence].
  destruct (inb m j) eqn:E2; cbn [andb]; [|congruence].
  destruct (inb p k) eqn:E3; [|congruence]. rewrite inb_true in *. auto.
Qed.
Lemma mk2_nz {A} `{Zeroed A} n m f i j : get2 (mk2 n m f) i j <> zero -> 0 <= i < n /\ 0 <= j < m.
Proof.
  simpl. destruct (inb n i) eqn:E1; cbn [andb]; [|congruence].
  destruct (inb m j) eqn:E2; cbn [andb]; [|congruence]. rewrite inb_true in *. auto.
Qed.
Lemma Cmult_nz (x y : C) : Cmult x y <> RtoC 0 -> x <> RtoC 0 /\ y <> RtoC 0.
Proof. intros H. split; intros ->; apply H; ring. Qed.
Lemma Cconj_nz (x : C) : Cconj x <> RtoC 0 -> x <> RtoC 0.
Proof. intros H ->. apply H. apply injective_projections; simpl; ring. Qed.

(** the coefficients handed to the inverse Wigner transforms are Wigner coefficients *)
Lemma wc_wigner flm j : 0 <= j <= J -> harmonic L spin flm ->
  wigner (Lj j) (Nj j) (L0 j) (wc L N lam mr psi flm j).
Proof.
  intros Hj (F1 & F2 & F). pose proof (sz_facts j Hj) as (Z1 & Z2 & Z3 & Z4).
  unfold wigner. repeat split; try reflexivity.
  all: intros; match goal with Hne : get3 _ _ _ _ <> _ |- _ => rename Hne into Hnz end.
  all: pose proof (mk3_nz _ _ _ _ _ _ _ Hnz) as (B1 & B2 & B3).
  all: try lia.
  all: rewrite wc_get in Hnz by lia; destruct (Z.even _) eqn:Ev; cbn [andb] in Hnz; [|congruence].
  all: destruct (Z.leb_spec (L0 j) l); [|congruence].
  all: try lia.
  all: apply Cmult_nz in Hnz as [_ Hnz]; apply Cmult_nz in Hnz as [Hf Hp]; apply Cconj_nz in Hp.
  all: apply F in Hf; apply Spsi in Hp; try lia.
Qed.
Lemma sc_harmonic flm : harmonic L spin flm -> harmonic Ls spin (scaling_coefs L phi flm Ls).
Proof.
  intros (F1 & F2 & F). pose proof (Ls_range L J_min lam mr HL lam0).
  unfold harmonic. repeat split; try reflexivity.
  all: intros; match goal with Hne : get2 _ _ _ <> _ |- _ => rename Hne into Hnz end.
  all: pose proof (mk2_nz _ _ _ _ _ Hnz) as (B1 & B2).
  all: unfold scaling_coefs in Hnz; rewrite get2_mk in Hnz by lia.
  all: apply Cmult_nz in Hnz as [Hf _]; apply F in Hf; lia.
Qed.

(** symmetry for real signals *)
Hypothesis Cpsi : forall j l n, 0 <= j <= J -> 0 <= l < L -> Z.abs n < L ->
  get3 psi j l (L - 1 - n) = Cmult (RtoC (sign_of n)) (Cconj (get3 psi j l (L - 1 + n))).

Lemma sign_plus a b : sign_of (a + b) = (sign_of a * sign_of b)%R.
Proof. unfold sign_of. apply powerRZ_add. lra. Qed.
Lemma Cconj_RtoC x : Cconj (RtoC x) = RtoC x.
Proof. apply injective_projections; simpl; ring. Qed.
Lemma Cconj_0 : Cconj (RtoC 0) = RtoC 0. Proof. apply Cconj_RtoC. Qed.

Lemma even_opp_shift n k : Z.even (- n - k) = Z.even (n - k).
Proof. rewrite !Z.even_sub, Z.even_opp. reflexivity. Qed.

Lemma mk3_out {A} `{Zeroed A} n m p f i j k : ~ (0 <= i < n /\ 0 <= j < m /\ 0 <= k < p) ->
  get3 (mk3 n m p f) i j k = zero.
Proof.
  simpl. destruct (inb n i) eqn:E1; cbn [andb]; [|auto].
  destruct (inb m j) eqn:E2; cbn [andb]; [|auto].
  destruct (inb p k) eqn:E3; [|auto]. rewrite inb_true in *. tauto.
Qed.
Lemma mk2_out {A} `{Zeroed A} n m f i j : ~ (0 <= i < n /\ 0 <= j < m) -> get2 (mk2 n m f) i j = zero.
Proof.
  simpl. destruct (inb n i) eqn:E1; cbn [andb]; [|auto].
  destruct (inb m j) eqn:E2; [|auto]. rewrite inb_true in *. tauto.
Qed.

Lemma wc_real flm j : 0 <= j <= J -> real_harmonic L flm ->
  real_wigner (Lj j) (Nj j) (wc L N lam mr psi flm j).
Proof.
  intros Hj Hr n l m. pose proof (sz_facts j Hj) as (Z1 & Z2 & Z3 & Z4).
  destruct (Z_lt_le_dec (Z.abs n) (Nj j)) as [Hn|Hn].
  2:{ unfold wc, wavelet_coefs. rewrite !mk3_out by lia. change (@zero C _) with (RtoC 0).
      rewrite Cconj_0. ring. }
  destruct (Z_lt_le_dec (Z.abs m) (Lj j)) as [Hm|Hm].
  2:{ unfold wc, wavelet_coefs. rewrite !mk3_out by lia. change (@zero C _) with (RtoC 0).
      rewrite Cconj_0. ring. }
  destruct (Z_lt_le_dec l 0) as [Hl|Hl].
  { unfold wc, wavelet_coefs. rewrite !mk3_out by lia. change (@zero C _) with (RtoC 0).
      rewrite Cconj_0. ring. }
  destruct (Z_lt_le_dec l (Lj j)) as [Hl'|Hl'].
  2:{ unfold wc, wavelet_coefs. rewrite !mk3_out by lia. change (@zero C _) with (RtoC 0).
      rewrite Cconj_0. ring. }
  rewrite !wc_get by lia.
  replace (Nj j - 1 - n - (Nj j - 1)) with (- n) by lia.
  replace (Nj j - 1 + n - (Nj j - 1)) with n by lia.
  replace (Lj j - 1 - m - (Lj j - 1)) with (- m) by lia.
  replace (Lj j - 1 + m - (Lj j - 1)) with m by lia.
  rewrite even_opp_shift. destruct (_ && _); [|rewrite Cconj_0; ring].
  replace (L - 1 + - m) with (L - 1 - m) by lia. replace (L - 1 + - n) with (L - 1 - n) by lia.
  rewrite Hr, Cpsi by lia. rewrite sign_plus, RtoC_mult.
  rewrite !Cmult_conj, !Cconj_RtoC. ring.
Qed.
Lemma sc_real flm : real_harmonic L flm -> real_harmonic Ls (scaling_coefs L phi flm Ls).
Proof.
  intros Hr l m. pose proof (Ls_range L J_min lam mr HL lam0). unfold scaling_coefs.
  destruct (Z_lt_le_dec (Z.abs m) Ls) as [Hm|Hm].
  2:{ rewrite !mk2_out by lia. change (@zero C _) with (RtoC 0). rewrite Cconj_0. ring. }
  destruct (Z_lt_le_dec l 0) as [Hl|Hl].
  { rewrite !mk2_out by lia. change (@zero C _) with (RtoC 0). rewrite Cconj_0. ring. }
  destruct (Z_lt_le_dec l Ls) as [Hl'|Hl'].
  2:{ rewrite !mk2_out by lia. change (@zero C _) with (RtoC 0). rewrite Cconj_0. ring. }
  rewrite !get2_mk by lia.
  replace (Ls - 1 - m - (Ls - 1)) with (- m) by lia. replace (Ls - 1 + m - (Ls - 1)) with m by lia.
  replace (L - 1 + - m) with (L - 1 - m) by lia. rewrite Hr, !Cmult_conj, !Cconj_RtoC. ring.
Qed.

(** one scale of the reconstruction *)
Lemma recon_scale flm j l m : J_min <= j <= J -> harmonic L spin flm -> 0 <= l < L -> Z.abs m < L ->
  wavelet_part L psi j (Lj j) (Nj j) (L0 j) (wc L N lam mr psi flm j) l m
  = Cmult (RtoC (8 * PI ^ 2 / (2 * IZR l + 1) *
                 sumZ (- l)%Z (l + 1)%Z (fun n => (Cmod (get3 psi j l (L - 1 + n)%Z) ^ 2)%R)))
          (get2 flm l (L - 1 + m)).
Proof.
  intros Hj (F1 & F2 & F) Hl Hm. pose proof (sz_facts j ltac:(lia)) as (Z1 & Z2 & Z3 & Z4).
  set (w := (8 * PI ^ 2 / (2 * IZR l + 1))%R). unfold wavelet_part.
  destruct (Ceq0_dec (get2 flm l (L - 1 + m))) as [E0|Hf].
  { rewrite E0. replace (Cmult _ (RtoC 0)) with (RtoC 0) by ring.
    destruct (_ && _) eqn:Ec; [|reflexivity].
    apply andb_true_iff in Ec as [Ec E3]. apply andb_true_iff in Ec as [E1 E2].
    apply Z.leb_le in E1. apply Z.ltb_lt in E2, E3.
    apply csumZ_zero. intros n Hn. destruct (Z.even _); [|reflexivity].
    rewrite wc_get by lia. replace (Lj j - 1 + m - (Lj j - 1)) with m by lia. rewrite E0.
    destruct (_ && _); ring. }
  apply F in Hf.
  destruct ((L0 j <=? l) && (l <? Lj j)) eqn:Ec.
  - apply andb_true_iff in Ec as [E1 E2]. apply Z.leb_le in E1. apply Z.ltb_lt in E2.
    replace (Z.abs m <? Lj j) with true by zb. cbn [andb].
    rewrite (csumZ_ext _ _ _ (fun n => Cmult (RtoC (w * Cmod (get3 psi j l (L - 1 + n)%Z) ^ 2))
                                            (get2 flm l (L - 1 + m)))).
    2:{ intros n Hn. destruct (Z.even (n - (Nj j - 1))) eqn:Ev.
        - rewrite wc_get by lia. replace (Lj j - 1 + m - (Lj j - 1)) with m by lia.
          replace (Nj j - 1 + n - (Nj j - 1)) with n by lia. rewrite Ev.
          replace (L0 j <=? l) with true by zb. cbn [andb]. fold w.
          rewrite RtoC_mult, <- Cmod2_conj. ring.
        - destruct (Ceq0_dec (get3 psi j l (L - 1 + n))) as [->|Hne].
          + rewrite Cmod_0. replace (w * 0 ^ 2)%R with 0%R by ring. ring.
          + apply Spsi in Hne; try lia. destruct Hne as (_ & _ & _ & Ev' & _). congruence. }
    rewrite csumZ_mulr, csumZ_RtoC, sumZ_mul. do 3 f_equal.
    (* both ranges cover the support *)
    assert (Z0 : forall n, Z.abs n < L -> ~ (Z.abs n <= l /\ Z.abs n < Nj j) ->
              (Cmod (get3 psi j l (L - 1 + n)%Z) ^ 2 = 0)%R).
    { intros n Hn Ho. destruct (Ceq0_dec (get3 psi j l (L - 1 + n))) as [->|Hne].
      - rewrite Cmod_0. ring.
      - apply Spsi in Hne; lia. }
    rewrite <- (sumZ_widen (- L + 1) (- Nj j + 1) (Nj j) L) by (lia || (intros; apply Z0; lia)).
    rewrite <- (sumZ_widen (- L + 1) (- l) (l + 1) L) by (lia || (intros; apply Z0; lia)).
    reflexivity.
  - cbn [andb]. rewrite sumZ_zero; [replace (w * 0)%R with 0%R by ring; ring|].
    intros n Hn. destruct (Ceq0_dec (get3 psi j l (L - 1 + n))) as [->|Hne].
    + rewrite Cmod_0. ring.
    + exfalso. apply Spsi in Hne; [|lia..]. destruct Hne as (_ & R1 & _).
      destruct (Z.leb_spec (L0 j) l), (Z.ltb_spec l (Lj j)); cbn [andb] in Ec; (discriminate || lia).
Qed.
Lemma recon_scal flm l m : harmonic L spin flm -> 0 <= l < L -> Z.abs m < L ->
  scaling_part phi Ls (scaling_coefs L phi flm Ls) l m
  = Cmult (RtoC (4 * PI / (2 * IZR l + 1) * get1 phi l ^ 2)) (get2 flm l (L - 1 + m)).
Proof.
  intros (F1 & F2 & F) Hl Hm. pose proof (Ls_range L J_min lam mr HL lam0).
  unfold scaling_part.
  destruct (Ceq0_dec (get2 flm l (L - 1 + m))) as [E0|Hf].
  { rewrite E0. destruct (Z.ltb_spec l Ls), (Z.ltb_spec (Z.abs m) Ls); cbn [andb]; try ring.
    unfold scaling_coefs. rewrite get2_mk by lia.
    replace (Ls - 1 + m - (Ls - 1)) with m by lia. rewrite E0. ring. }
  apply F in Hf. destruct (Z.ltb_spec l Ls); cbn [andb].
  - replace (Z.abs m <? Ls) with true by zb. unfold scaling_coefs. rewrite get2_mk by lia.
    replace (Ls - 1 + m - (Ls - 1)) with m by lia.
    destruct (two_l1 l ltac:(lia)) as [_ Hp]. pose proof PI_RGT_0.
    rewrite <- Cmult_assoc, <- RtoC_mult, Cmult_comm. do 2 f_equal.
    rewrite <- (sqrt_sqrt (4 * PI / (2 * IZR l + 1))) at 3 by (apply Rdiv_le_0_compat; lra). ring.
  - destruct (Req_dec (get1 phi l) 0) as [->|Hne].
    + replace (4 * PI / (2 * IZR l + 1) * 0 ^ 2)%R with 0%R by ring. ring.
    + apply Sphi in Hne; lia.
Qed.

Lemma Tnth_map {A} (d : A) (g : Z -> A) lo hi j : lo <= j < hi ->
  Tnth d lo (map g (zrange lo hi)) j = g j.
Proof.
  intros. unfold Tnth. apply nth_error_nth. rewrite nth_error_map, nth_error_zrange by lia. simpl.
  do 2 f_equal. lia.
Qed.

Lemma recon flm : harmonic L spin flm ->
  syn L N J_min J lam mr psi phi (map (wc L N lam mr psi flm) (zrange J_min (J + 1)))
      (scaling_coefs L phi flm Ls)
  = scale_l (dir_total L psi phi J_min J) flm.
Proof.
  intros HF. pose proof HF as (F1 & F2 & _). unfold syn, synthesised, scale_l. rewrite F1, F2.
  apply mk2_ext. intros l q Hl Hq. cbv zeta. set (m := q - (L - 1)).
  replace q with (L - 1 + m) by (unfold m; lia).
  rewrite recon_scal by (auto; lia).
  rewrite (csumZ_ext _ _ _ (fun j => Cmult (RtoC (8 * PI ^ 2 / (2 * IZR l + 1) *
                 sumZ (- l)%Z (l + 1)%Z (fun n => (Cmod (get3 psi j l (L - 1 + n)%Z) ^ 2)%R)))
          (get2 flm l (L - 1 + m)))).
  2:{ intros j Hj. unfold szf. rewrite Tnth_map by lia. apply recon_scale; auto; lia. }
  rewrite csumZ_mulr, csumZ_RtoC, sumZ_mul. unfold dir_total.
  rewrite !RtoC_plus. ring.
Qed.

Lemma scale_1 c flm : harmonic L spin flm -> (forall l, Z.abs spin <= l < L -> c l = 1%R) ->
  scale_l c flm = flm.
Proof.
  intros HF Hc. pose proof HF as (F1 & F2 & F). rewrite (harmonic_eta _ _ _ HF) at 2.
  unfold scale_l. rewrite F1, F2. apply mk2_ext. intros l q Hl Hq.
  destruct (Ceq0_dec (get2 flm l q)) as [->|Hne]; [ring|].
  replace q with (L - 1 + (q - (L - 1))) in Hne by lia. apply F in Hne.
  rewrite Hc by lia. ring.
Qed.

(** a synthesised array is harmonic *)
Lemma syn_harmonic Ts S : harmonic Ls spin S ->
  (forall j, J_min <= j <= J -> wigner (Lj j) (Nj j) (L0 j) (Tnth nd0 J_min Ts j)) ->
  harmonic L spin (syn L N J_min J lam mr psi phi Ts S).
Proof.
  intros (S1 & S2 & HS) HT. unfold harmonic. split; [reflexivity|]. split; [reflexivity|].
  intros l m Hne. pose proof (mk2_nz _ _ _ _ _ Hne) as (B1 & B2).
  unfold syn, synthesised in Hne. rewrite get2_mk in Hne by lia. cbv zeta in Hne.
  replace (L - 1 + m - (L - 1)) with m in Hne by lia.
  destruct (Z_le_dec (Z.abs spin) l) as [Hsp|Hsp]; [destruct (Z_le_dec (Z.abs m) l) as [Hm|Hm]; [lia|]|].
  all: exfalso; apply Hne.
  all: rewrite csumZ_zero.
  1,3: rewrite Cplus_0_l; unfold scaling_part; destruct (_ && _); [|reflexivity].
  1,2: destruct (Ceq0_dec (get2 S l (Ls - 1 + m))) as [->|Hn]; [ring|apply HS in Hn; lia].
  all: intros j Hj; unfold szf, wavelet_part; destruct (_ && _); [|reflexivity].
  all: pose proof (sz_facts j ltac:(lia)) as (Z1 & Z2 & Z3 & Z4).
  all: apply csumZ_zero; intros n Hn; destruct (Z.even _); [|reflexivity].
  - destruct (Ceq0_dec (get3 (Tnth nd0 J_min Ts j) (Nj j - 1 + n) l (Lj j - 1 + m))) as [->|Hn']; [ring|].
    apply (HT j ltac:(lia)) in Hn'. lia.
  - destruct (Ceq0_dec (get3 psi j l (L - 1 + n))) as [->|Hn']; [ring|].
    apply Spsi in Hn'; lia.
Qed.
End Recon.
