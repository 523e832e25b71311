(** * Facts about filters and oracles used by the transform properties *)

From Coq Require Import ZArith Reals List Bool Lia Lra.
From Coquelicot Require Import Rcomplements Complex.
From Verif Require Import Py PyFacts ModelSamples SamplesFacts ModelFilters ModelTransforms Spec SpecTransforms
  FiltersFacts AxisymFacts DirectionFacts DirFilterFacts FiltersProps TransformsFacts BackendFacts LoopFacts
  ReconFacts.
Import ListNotations.
Open Scope Z_scope.

Lemma even_mod m : m mod 2 = 0 -> Z.even m = true.
Proof. intros H. rewrite Zmod_even in H. destruct (Z.even m); auto. discriminate. Qed.
Lemma even_mod' m : Z.even m = true -> m mod 2 = 0.
Proof. intros H. rewrite Zmod_even, H. reflexivity. Qed.

Lemma psi_ok_of lam F L N lo J spin spin0 mr : (1 < lam)%R -> is_F lam F -> 1 <= L -> 1 <= N -> 0 <= lo ->
  psi_supp L N J spin lam mr (psid F L N lo J spin spin0).
Proof.
  intros Hlam HF HL HN Hlo j l n Hj Hl Hn Hne.
  destruct (psid_supp lam F L N lo J spin spin0 j l n Hlam HF HL HN Hlo Hj Hl Hn Hne)
    as (_ & E & A & B & P & _ & R1 & R2). unfold el_min in E.
  destruct (Nj_facts L j N lam mr HL ltac:(lra) HN) as (_ & Nf & _ & Np).
  assert (Ev : Z.even (n - (Nj_of L j N lam mr - 1)) = true).
  { apply even_mod. Z.div_mod_to_equations; lia. }
  destruct mr.
  - repeat split; auto; lia.
  - rewrite Nf in * by reflexivity. unfold Lj_of, L0_of. repeat split; auto; lia.
Qed.
Lemma phi_ok_of lam L J_min spin spin0 mr : (1 < lam)%R -> 0 <= J_min ->
  phi_supp L J_min spin lam mr (phid lam L J_min spin spin0).
Proof.
  intros Hlam HJ l Hl Hne.
  destruct (phid_supp lam L J_min spin spin0 l Hlam Hl HJ Hne) as (E & _ & R1). unfold el_min in E.
  destruct mr; [lia|]. unfold Ls_of. lia.
Qed.

Record filt (L N J_min J spin : Z) (lam : R) (psi : arr3 C) (phi : arr1 R) : Prop := Filt {
  f_J : j_max L lam = Ok J;
  f_range : 0 <= J_min < J;
  f_psi : psi_sh L J psi;
  f_phi : len1 phi = L;
  f_psi_supp : forall mr, psi_supp L N J spin lam mr psi;
  f_phi_supp : forall mr, phi_supp L J_min spin lam mr phi;
  f_conj : forall j l n, 0 <= j <= J -> 0 <= l < L -> Z.abs n < L ->
     get3 psi j l (L - 1 - n) = Cmult (RtoC (sign_of n)) (Cconj (get3 psi j l (L - 1 + n)));
  f_out : forall j l q, ~ 0 <= q < 2 * L - 1 -> get3 psi j l q = RtoC 0
}.

Lemma is_F_tv lam : (1 < lam)%R -> is_F lam (tv lam Q).
Proof. intros. unfold is_F. auto. Qed.
Lemma is_F_vec lam : (1 < lam)%R -> is_F lam (Fvec lam).
Proof. intros. unfold is_F. auto. Qed.

Lemma filt_of L N J_min spin spin0 lam psi phi : 1 <= L -> 1 <= N -> (1 < lam)%R ->
  is_filters L N J_min lam spin spin0 psi phi -> exists J, filt L N J_min J spin lam psi phi.
Proof.
  intros HL HN Hlam E.
  assert (E' : filters_directional L N J_min lam spin spin0 = Ok (psi, phi) \/
               filters_directional_vectorised L N J_min lam spin spin0 = Ok (psi, phi)).
  { destruct E as [E|[E|E]]; auto. right. destruct (Z.eq_dec spin0 0) as [->|Hs].
    - now apply jax_to_vec.
    - rewrite spin_fail_jax in E by assumption. discriminate. }
  destruct E' as [E'|E'].
  - destruct (inv_dir lam L J_min Hlam HL N spin spin0 psi phi HN E') as (J & EJ & HJ & -> & ->).
    exists J. constructor; auto.
    + repeat split; reflexivity.
    + intros. apply psi_ok_of; auto using is_F_tv. lia.
    + intros. apply phi_ok_of; auto. lia.
    + intros. now apply psid_conj.
    + intros. unfold psid. cbn [get3 mk3]. replace (inb (2 * L - 1) q) with false; [now rewrite !andb_false_r|].
      symmetry. apply not_true_iff_false. now rewrite inb_true.
  - destruct (inv_dvec lam L J_min Hlam HL N spin spin0 psi phi HN E') as (J & EJ & HJ & -> & -> & ->).
    exists J. constructor; auto.
    + repeat split; reflexivity.
    + intros. apply psi_ok_of; auto using is_F_vec. lia.
    + intros. apply phi_ok_of; auto. lia.
    + intros. now apply psid_conj.
    + intros. unfold psid. cbn [get3 mk3]. replace (inb (2 * L - 1) q) with false; [now rewrite !andb_false_r|].
      symmetry. apply not_true_iff_false. now rewrite inb_true.
Qed.
Lemma filt_J L N J_min J spin spin0 lam psi phi : 1 <= L -> 1 <= N -> (1 < lam)%R ->
  is_filters L N J_min lam spin spin0 psi phi -> j_max L lam = Ok J -> filt L N J_min J spin lam psi phi.
Proof.
  intros HL HN Hlam E EJ. destruct (filt_of _ _ _ _ _ _ _ _ HL HN Hlam E) as (J' & H).
  rewrite (f_J _ _ _ _ _ _ _ _ H) in EJ. apply Ok_inj in EJ. now subst.
Qed.

(** ** Lists of scales *)

Lemma lrd_nth {A} (l : list A) i a : 0 <= i < Z.of_nat (length l) -> nth_error l (Z.to_nat i) = Some a ->
  lrd l i = Ok a.
Proof. intros Hi E. unfold lrd. rewrite idx_ok by lia. cbn [bind]. now rewrite E. Qed.

Lemma mapM_ex {A} (P : Z -> A -> Prop) (f : Z -> res A) lo hi : lo <= hi ->
  (forall j, lo <= j < hi -> exists y, f j = Ok y /\ P j y) ->
  exists ys, mapM f (zrange lo hi) = Ok ys /\ length ys = Z.to_nat (hi - lo) /\
    forall j, lo <= j < hi -> exists y, f j = Ok y /\ P j y /\ lrd ys (j - lo) = Ok y /\
      nth_error ys (Z.to_nat (j - lo)) = Some y.
Proof.
  intros Hlh H.
  destruct (mapM f (zrange lo hi)) as [ys|e] eqn:E.
  - exists ys. split; [reflexivity|]. destruct (mapM_inv _ _ _ E) as [Hl Hn].
    rewrite zrange_length in Hl. split; [lia|]. intros j Hj.
    destruct (Hn (Z.to_nat (j - lo)) j) as (y & Ey & En).
    { rewrite nth_error_zrange by lia. f_equal. lia. }
    exists y. split; auto. split.
    + destruct (H j Hj) as (y' & Ey' & Hp). congruence.
    + split; [|exact En]. apply lrd_nth; [lia|exact En].
  - destruct (mapM_err _ _ _ E) as (x & Hx & Ex). apply In_zrange in Hx.
    destruct (H x Hx) as (y & Ey & _). congruence.
Qed.

Lemma round_list {A B} (W : Z -> B) (winv : Z -> B -> res A) (wfwd : Z -> A -> res B) lo hi : lo <= hi ->
  (forall j, lo <= j < hi -> exists y, winv j (W j) = Ok y /\ wfwd j y = Ok (W j)) ->
  exists ws, mapM (fun j => winv j (W j)) (zrange lo hi) = Ok ws /\ length ws = Z.to_nat (hi - lo) /\
    (forall j, lo <= j < hi -> exists y, winv j (W j) = Ok y /\ wfwd j y = Ok (W j) /\
       lrd ws (j - lo) = Ok y /\ nth_error ws (Z.to_nat (j - lo)) = Some y) /\
    mapM (fun j => y <- lrd ws (j - lo) ;; wfwd j y) (zrange lo hi) = Ok (map W (zrange lo hi)).
Proof.
  intros Hlh H.
  destruct (mapM_ex (fun j y => wfwd j y = Ok (W j)) (fun j => winv j (W j)) lo hi Hlh H) as (ws & E & Hl & Hw).
  exists ws. split; auto. split; auto. split.
  - exact Hw.
  - apply mapM_ok. intros j Hj. apply In_zrange in Hj. destruct (Hw j Hj) as (y & _ & E1 & E2 & _).
    rewrite E2. cbn [bind]. exact E1.
Qed.

(** ** Exactness at the sizes of the transform *)

Section Ex.
Variables (L N J_min J spin : Z) (lam : R) (mr : bool) (psi : arr3 C) (phi : arr1 R).
Hypothesis HL : 1 <= L.
Hypothesis HN : 1 <= N <= L.
Hypothesis Hlam : (1 < lam)%R.
Hypothesis HF : filt L N J_min J spin lam psi phi.

Notation Lj j := (Lj_of L j lam mr).
Notation Nj j := (Nj_of L j N lam mr).
Notation L0 j := (L0_of j lam mr).
Notation Ls := (Ls_of L J_min lam mr).
Let EJ := f_J _ _ _ _ _ _ _ _ HF.
Let HJ := f_range _ _ _ _ _ _ _ _ HF.
Notation lam0 := (lam0 lam Hlam).

Lemma sizes j : 0 <= j <= J ->
  0 <= L0 j <= Lj j /\ 1 <= Lj j <= L /\ 1 <= Nj j <= N /\ Nj j <= Lj j + 1.
Proof.
  intros Hj. destruct (sz_facts L N J lam mr HL HN Hlam EJ j Hj) as (A & B & C & D).
  destruct (Nj_facts L j N lam mr HL lam0 ltac:(lia)) as (N1 & N2 & _).
  repeat split; try lia. destruct mr; [specialize (N1 eq_refl); lia|]. rewrite (N2 eq_refl).
  unfold Lj_of. lia.
Qed.

Lemma wc_is flm j reality : 0 <= j <= J -> is_harmonic L spin reality flm ->
  is_wigner (Lj j) (Nj j) (L0 j) reality (wc L N lam mr psi flm j).
Proof.
  intros Hj (H1 & H2). split.
  - apply (wc_wigner L N J spin lam mr HL HN Hlam EJ psi); auto. apply (f_psi_supp _ _ _ _ _ _ _ _ HF).
  - intros Hr. apply (wc_real L N J_min J lam mr HL HN Hlam EJ ltac:(lia) psi); auto. apply (f_conj _ _ _ _ _ _ _ _ HF).
Qed.
Lemma wc_is0 flm j reality : 0 <= j <= J -> is_harmonic L spin reality flm ->
  is_wigner (Lj j) (Nj j) 0 reality (wc L N lam mr psi flm j).
Proof.
  intros Hj H. destruct (wc_is flm j reality Hj H) as ((W1 & W2 & W3 & W4) & W5).
  split; auto. repeat split; auto; match goal with H : get3 _ _ _ _ <> _ |- _ => apply W4 in H; lia end.
Qed.
Lemma sc_is flm reality : is_harmonic L spin reality flm ->
  is_harmonic Ls spin reality (scaling_coefs L phi flm Ls).
Proof.
  intros (H1 & H2). split.
  - apply (sc_harmonic L J_min spin lam mr HL Hlam); auto.
  - intros Hr. apply (sc_real L N J_min J lam mr HL HN Hlam ltac:(lia)); auto.
Qed.

Lemma recon_f flm : harmonic L spin flm ->
  syn L N J_min J lam mr psi phi (map (wc L N lam mr psi flm) (zrange J_min (J + 1)))
      (scaling_coefs L phi flm Ls)
  = scale_l (dir_total L psi phi J_min J) flm.
Proof.
  intros H. apply (recon L N J_min J spin lam mr HL HN Hlam EJ); auto; try lia.
  - apply (f_psi_supp _ _ _ _ _ _ _ _ HF).
  - apply (f_phi_supp _ _ _ _ _ _ _ _ HF).
Qed.

Lemma wc_shape flm j : flmn_sh (Nj j) (Lj j) (wc L N lam mr psi flm j).
Proof. repeat split; reflexivity. Qed.

(** the skeleton shared by all round trips *)
Lemma round_gen flm (winv : Z -> arr3 C -> res nd) (wfwd : Z -> nd -> res (arr3 C))
    (scinv : arr2 C -> res nd) (scfwd : nd -> res (arr2 C)) :
  harmonic L spin flm ->
  (forall j, J_min <= j <= J -> exists y, winv j (wc L N lam mr psi flm j) = Ok y /\
     wfwd j y = Ok (wc L N lam mr psi flm j)) ->
  (exists y, scinv (scaling_coefs L phi flm Ls) = Ok y /\ scfwd y = Ok (scaling_coefs L phi flm Ls)) ->
  exists w sc,
    mapM (fun j => winv j (wc L N lam mr psi flm j)) (zrange J_min (J + 1)) = Ok w /\
    scinv (scaling_coefs L phi flm Ls) = Ok sc /\
    length w = Z.to_nat (J + 1 - J_min) /\
    (forall j, J_min <= j <= J -> exists y, winv j (wc L N lam mr psi flm j) = Ok y /\
       wfwd j y = Ok (wc L N lam mr psi flm j) /\
       lrd w (j - J_min) = Ok y /\ nth_error w (Z.to_nat (j - J_min)) = Some y) /\
    scfwd sc = Ok (scaling_coefs L phi flm Ls) /\
    exists Ts, mapM (fun j => fj <- lrd w (j - J_min) ;; wfwd j fj) (zrange J_min (J + 1)) = Ok Ts /\
      Ts = map (wc L N lam mr psi flm) (zrange J_min (J + 1)) /\
      syn L N J_min J lam mr psi phi Ts (scaling_coefs L phi flm Ls)
      = scale_l (dir_total L psi phi J_min J) flm.
Proof.
  intros Hh Hw (sc & Hs1 & Hs2).
  destruct (round_list (wc L N lam mr psi flm) winv wfwd J_min (J + 1) ltac:(lia)) as (w & E1 & E2 & E3 & E4).
  { intros j Hj. apply Hw. lia. }
  exists w, sc. split; auto. split; auto. split; auto. split.
  { intros j Hj. apply E3. lia. }
  split; auto. eexists. split; [exact E4|]. split; auto. apply recon_f. exact Hh.
Qed.
End Ex.

(** ** Looped against vectorised, in coefficient space *)

Section LoopVec.
Variables (L N J_min J spin : Z) (lam : R) (mr : bool) (psi : arr3 C) (phi : arr1 R).
Hypothesis HL : 1 <= L.
Hypothesis HN : 1 <= N.
Hypothesis Hlam : (1 < lam)%R.
Hypothesis HF : filt L N J_min J spin lam psi phi.

Notation Lj j := (Lj_of L j lam mr).
Notation Nj j := (Nj_of L j N lam mr).
Notation L0 j := (L0_of j lam mr).
Notation Ls := (Ls_of L J_min lam mr).
Let EJ := f_J _ _ _ _ _ _ _ _ HF.
Let HJ := f_range _ _ _ _ _ _ _ _ HF.
Notation lam0 := (lam0 lam Hlam).
Notation Spsi := (f_psi_supp _ _ _ _ _ _ _ _ HF mr).
Notation Sphi := (f_phi_supp _ _ _ _ _ _ _ _ HF mr).

Lemma psi_in j l n : get3 psi j l (L - 1 + n) <> RtoC 0 -> Z.abs n < L.
Proof.
  intros H. destruct (Z_lt_le_dec (Z.abs n) L); auto. exfalso. apply H. apply (f_out _ _ _ _ _ _ _ _ HF). lia.
Qed.

Lemma wloop_false flm j : 0 <= j <= J -> harmonic L spin flm ->
  wloop L spin psi flm false j (Lj j) (Nj j) (L0 j) = wc L N lam mr psi flm j.
Proof.
  intros Hj (F1 & F2 & F). unfold wloop, wc, wavelet_coefs.
  destruct (sz_facts0 L N J lam mr HL HN Hlam EJ j Hj) as (Z1 & Z2 & Z3).
  apply mk3_ext. intros a l b Ha Hl Hb. cbv zeta.
  set (n := a - (Nj j - 1)). set (m := b - (Lj j - 1)).
  assert (Ev : Z.even a = Z.even (n - (Nj j - 1))).
  { unfold n. replace (a - (Nj j - 1) - (Nj j - 1)) with (a - 2 * (Nj j - 1)) by lia.
    rewrite Z.even_sub, Z.even_mul. cbn [Z.even orb]. destruct (Z.even a); reflexivity. }
  rewrite <- Ev. destruct (Z.even a); cbn [andb]; [|reflexivity].
  unfold wvalr, wval. cbn [andb]. rewrite w8.
  destruct (Z.leb_spec (L0 j) l); cbn [andb].
  - destruct (Z.leb_spec (Z.max (Z.max (Z.abs spin) (Z.abs n)) (L0 j)) l); cbn [andb].
    + destruct (Z.leb_spec (Z.abs m) l); [ring|].
      destruct (Ceq0_dec (get2 flm l (L - 1 + m))) as [->|Hne]; [ring|apply F in Hne; lia].
    + destruct (Ceq0_dec (get2 flm l (L - 1 + m))) as [->|Hne]; [ring|apply F in Hne].
      destruct (Ceq0_dec (get3 psi j l (L - 1 + n))) as [->|Hn']; [rewrite Cconj_0; ring|].
      exfalso. pose proof (psi_in _ _ _ Hn'). apply Spsi in Hn'; unfold n in *; lia.
  - replace (Z.max (Z.max (Z.abs spin) (Z.abs n)) (L0 j) <=? l) with false by zb. reflexivity.
Qed.
Lemma wloop_true flm j : 0 <= j <= J -> real_harmonic L flm ->
  wloop L spin psi flm true j (Lj j) (Nj j) (L0 j) = wloop L spin psi flm false j (Lj j) (Nj j) (L0 j).
Proof.
  intros Hj Hr. unfold wloop.
  destruct (sz_facts0 L N J lam mr HL HN Hlam EJ j Hj) as (Z1 & Z2 & Z3).
  apply mk3_ext. intros a l b Ha Hl Hb. cbv zeta.
  set (n := a - (Nj j - 1)). set (m := b - (Lj j - 1)).
  destruct (_ && _) eqn:Eg; [|reflexivity]. rewrite !andb_true_iff, !Z.leb_le in Eg. unfold wvalr. cbn [andb].
  destruct (Z.ltb_spec m 0); [|reflexivity]. unfold wval.
  pose proof (Hr l (- m)) as Er. replace (L - 1 - - m) with (L - 1 + m) in Er by lia. rewrite Er.
  pose proof (f_conj _ _ _ _ _ _ _ _ HF j l (- n) Hj ltac:(lia) ltac:(unfold n; lia)) as Ep.
  replace (L - 1 - - n) with (L - 1 + n) in Ep by lia. rewrite Ep.
  rewrite <- sign_msgn, sign_plus, RtoC_mult, !Cmult_conj, !Cconj_RtoC, !Cconj_conj. ring.
Qed.
Lemma sloop_false flm : harmonic L spin flm -> sloop L spin phi flm false Ls = scaling_coefs L phi flm Ls.
Proof.
  intros (F1 & F2 & F). unfold sloop, scaling_coefs. pose proof (Ls_range L J_min lam mr HL lam0).
  apply mk2_ext. intros l b Hl Hb. cbv zeta. set (m := b - (Ls - 1)). unfold svalr, pval. cbn [andb].
  rewrite w4. destruct (Z.leb_spec (Z.abs spin) l); cbn [andb].
  - destruct (Z.leb_spec (Z.abs m) l); [reflexivity|].
    destruct (Ceq0_dec (get2 flm l (L - 1 + m))) as [->|Hne]; [ring|apply F in Hne; lia].
  - destruct (Ceq0_dec (get2 flm l (L - 1 + m))) as [->|Hne]; [ring|apply F in Hne; lia].
Qed.
Lemma sloop_true flm : real_harmonic L flm -> sloop L spin phi flm true Ls = sloop L spin phi flm false Ls.
Proof.
  intros Hr. unfold sloop. apply mk2_ext. intros l b Hl Hb. cbv zeta. set (m := b - (Ls - 1)).
  destruct (_ && _); [|reflexivity]. unfold svalr. cbn [andb].
  destruct (Z.ltb_spec m 0); [|reflexivity].
  pose proof (Hr l (- m)) as Er. replace (L - 1 - - m) with (L - 1 + m) in Er by lia. rewrite Er.
  unfold pval. rewrite <- sign_msgn, !Cmult_conj, !Cconj_RtoC. ring.
Qed.

(** the array the looped synthesis hands to the inverse transform *)
Lemma wpart_eq T j l m : 0 <= j <= J -> 0 <= l < L -> Z.abs m < L -> wigner (Lj j) (Nj j) (L0 j) T ->
  wpart_loop L spin psi j (Lj j) (Nj j) (L0 j) T l m = wavelet_part L psi j (Lj j) (Nj j) (L0 j) T l m.
Proof.
  intros Hj Hl Hm (T0 & T1 & T2 & HT). unfold wpart_loop, wavelet_part.
  destruct (sz_facts0 L N J lam mr HL HN Hlam EJ j Hj) as (Z1 & Z2 & Z3).
  destruct (Z.leb_spec (Z.abs m) l).
  - destruct (Z.ltb_spec l (Lj j)); [|rewrite andb_false_r; cbn [andb]; apply csumZ_zero; intros;
       rewrite !andb_false_r; reflexivity].
    replace (Z.abs m <? Lj j) with true by zb. rewrite !andb_true_r.
    destruct (Z.leb_spec (L0 j) l).
    + apply csumZ_ext. intros n Hn. rewrite andb_true_r. destruct (Z.even (n - (Nj j - 1))); cbn [andb]; auto.
      destruct (Z.leb_spec (Z.max (Z.max (Z.abs spin) (Z.abs n)) (L0 j)) l); auto.
      destruct (Ceq0_dec (get3 psi j l (L - 1 + n))) as [->|Hn']; [ring|].
      exfalso. pose proof (psi_in _ _ _ Hn'). apply Spsi in Hn'; lia.
    + apply csumZ_zero. intros n Hn.
      replace (Z.max (Z.max (Z.abs spin) (Z.abs n)) (L0 j) <=? l) with false by zb.
      rewrite andb_false_r. reflexivity.
  - destruct (_ && _); [|reflexivity]. symmetry. apply csumZ_zero. intros n Hn.
    destruct (Z.even _); auto.
    destruct (Ceq0_dec (get3 T (Nj j - 1 + n) l (Lj j - 1 + m))) as [->|Hn']; [ring|].
    apply HT in Hn'. lia.
Qed.
Lemma synl_false Ts S : harmonic Ls spin S ->
  (forall j, J_min <= j <= J -> wigner (Lj j) (Nj j) (L0 j) (Tnth nd0 J_min Ts j)) ->
  synl L N J_min J lam mr spin psi phi false Ts S = syn L N J_min J lam mr psi phi Ts S.
Proof.
  intros (S1 & S2 & HS) HT. unfold synl, syn, synthesised. apply mk2_ext. intros l q Hl Hq. cbv zeta.
  set (m := q - (L - 1)). unfold sy_fin. cbn [andb].
  assert (E : csumZ J_min (J + 1) (fun j => wpart_loop L spin psi j (Lj j) (Nj j) (L0 j) (Tnth nd0 J_min Ts j) l m)
            = csumZ J_min (J + 1) (fun j => let '(a, b, c) := szf L N lam mr j in
                 wavelet_part L psi j a b c (Tnth nd0 J_min Ts j) l m)).
  { apply csumZ_ext. intros j Hj. unfold szf. apply wpart_eq; try lia. apply HT. lia. }
  rewrite E. unfold scaling_part, pval. rewrite w4.
  destruct (Z.leb_spec (Z.abs spin) l); cbn [andb].
  - destruct (Z.ltb_spec l Ls); cbn [andb]; [|ring].
    destruct (Z.leb_spec (Z.abs m) l).
    + replace (Z.abs m <? Ls) with true by zb. reflexivity.
    + destruct (Z.abs m <? Ls); [|ring].
      destruct (Ceq0_dec (get2 S l (Ls - 1 + m))) as [->|Hn]; [ring|apply HS in Hn; lia].
  - destruct (_ && _); [|ring].
    destruct (Ceq0_dec (get2 S l (Ls - 1 + m))) as [->|Hn]; [ring|apply HS in Hn; lia].
Qed.
Lemma synl_true_nonneg Ts S l m : 0 <= l < L -> 0 <= m < L ->
  get2 (synl L N J_min J lam mr spin psi phi true Ts S) l (L - 1 + m)
  = get2 (synl L N J_min J lam mr spin psi phi false Ts S) l (L - 1 + m).
Proof.
  intros Hl Hm. unfold synl. rewrite !get2_mk by lia. replace (L - 1 + m - (L - 1)) with m by lia.
  unfold sy_fin. cbn [andb]. replace (m <? 0) with false by zb. reflexivity.
Qed.
Lemma synl_shape reality Ts S : rows (synl L N J_min J lam mr spin psi phi reality Ts S) = L /\
  cols (synl L N J_min J lam mr spin psi phi reality Ts S) = 2 * L - 1.
Proof. split; reflexivity. Qed.
End LoopVec.
