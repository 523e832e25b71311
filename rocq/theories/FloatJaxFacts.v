(** * Closed forms of the binary64 JAX transforms *)

From Coq Require Import ZArith Reals List Bool Lia Lra.
From Coquelicot Require Import Complex.
From Flocq Require Import Core IEEE754.BinarySingleNaN.
From Verif Require Import Py PyFacts ModelSamples SamplesFacts ModelFilters ModelTransforms Spec DirectionFacts DirFilterFacts TransformsFacts BackendFacts.
From Verif Require Import ModelFloat ModelFloatDir ModelFloatTrans ModelFloatJax SpecFpDir SpecFpTrans SpecFpJax FloatDirFacts FloatDirProps FloatTransFacts FloatTransErr FloatTransClosed.
From Verif Require Import FloatFacts.
Import ListNotations.
Open Scope Z_scope.

(** adding to a zero *)
Lemma fadd_0l x : B2R (fadd (fint 0) x) = B2R x /\ (is_finite x = true -> is_finite (fadd (fint 0) x) = true).
Proof.
  destruct (is_finite x) eqn:F.
  - destruct (fadd_z' (fint 0) x) as [A B]; auto.
  - split; [|discriminate]. destruct x; try discriminate; reflexivity.
Qed.
Lemma cadd_0l x : cval (cadd (creal (fint 0)) x) = cval x /\ (finite64 x -> finite64 (cadd (creal (fint 0)) x)).
Proof.
  unfold cval, cadd, finite64, creal. cbn [fst snd]. destruct (fadd_0l (fst x)) as [A1 B1]. destruct (fadd_0l (snd x)) as [A2 B2].
  split; [now rewrite A1, A2|]. intros [F1 F2]. auto.
Qed.

Lemma fadd_same x : same64 (fadd (fint 0) x) x.
Proof. destruct x as [sg|sg| |sg m e H]; try (now left). right. exists false, sg. destruct sg; split; reflexivity. Qed.

Section Scale.
Variables (L Lj Nj L0 j : Z).
Hypothesis HL : 0 <= L0 <= Lj.
Hypothesis HLj : 1 <= Lj <= L.
Hypothesis HN : 1 <= Nj <= L.
Definition wavj (psi : arr3 c64) (flm : arr2 c64) : arr3 c64 :=
  mk3 (2 * Nj - 1) Lj (2 * Lj - 1) (fun a l b =>
    if Z.even a && (L0 <=? l)
    then cadd (creal (fint 0)) (cmul (get2 flm l (L - Lj + b)) (cmul (cconj64 (get3 psi j l (L - Nj + a))) (creal (w8f l))))
    else creal (fint 0)).
Lemma upd_anj flm psi : 0 <= j < dim0 psi -> dim1 psi = L -> dim2 psi = 2 * L - 1 ->
  upd3 cadd (mk3 (2 * Nj - 1) Lj (2 * Lj - 1) (fun _ _ _ => creal (fint 0))) every2 (from L0) full (xan64 L Lj Nj L0 j flm (wpsi64 psi))
  = Ok (wavj psi flm).
Proof.
  intros H0 H1 H2. unfold upd3. cbn [dim0 dim1 dim2 mk3 xan64].
  destruct (every2_len Nj) as [E1 E2]; try lia.
  destruct (from_len Lj L0) as [E3 E4]; try lia.
  destruct (full_len (2 * Lj - 1)) as [E5 E6]; try lia.
  rewrite E1, E3, E5. unfold bok. rewrite !Z.eqb_refl. cbn [orb andb]. f_equal.
  unfold wavj. apply mk3_ext. intros a l b Ha Hl Hb.
  rewrite every2_mem, from_mem, mem_full by lia. rewrite andb_true_r. rewrite get3_mk by lia.
  destruct (Z.even a) eqn:Ev; cbn [andb]; [|reflexivity].
  destruct (Z.leb_spec L0 l); [|reflexivity]. f_equal.
  unfold sl_pos. rewrite E2, E4, E6. cbn [s_st every2 from full].
  assert (Hc : a = 2 * (a / 2)) by (apply Z.even_spec in Ev; destruct Ev as [c Hc]; rewrite Hc; rewrite (Z.mul_comm 2 c), Z.div_mul; lia).
  set (c := a / 2) in *. rewrite Hc.
  replace ((2 * c - 0) / 2) with c by (rewrite Z.sub_0_r, Z.mul_comm, Z.div_mul; lia).
  rewrite !Z.div_1_r. rewrite !bi_in by lia. unfold xan64, wpsi64. rewrite get3_mk by lia. rewrite get3_mk by lia.
  replace (L0 + (l - L0)) with l by lia. replace (b - 0) with b by lia. reflexivity.
Qed.
Lemma wavj_same psi flm : same3 (wavj psi flm) (wav64 L Lj Nj L0 j psi flm).
Proof.
  split; [reflexivity|]. split; [reflexivity|]. split; [reflexivity|]. unfold wav64, wavj. cbn [dim0 dim1 dim2 mk3]. intros a l b Ha Hl Hb. rewrite !get3_mk by lia.
  destruct (Z.even a && (L0 <=? l)); [apply cadd_0l|]. split; auto.
Qed.
Lemma wavj_array psi flm : same_array (wavj psi flm) (wav64 L Lj Nj L0 j psi flm).
Proof.
  split; [reflexivity|]. split; [reflexivity|]. split; [reflexivity|]. intros a l b. unfold wavj, wav64. cbn [get3 mk3].
  destruct (inb (2 * Nj - 1) a && inb Lj l && inb (2 * Lj - 1) b); [|split; now left].
  destruct (Z.even a && (L0 <=? l)); [|split; now left]. split; apply fadd_same.
Qed.
End Scale.

Section Tr.
Variables (fpow : f64 -> Z -> f64) (fsum : Z -> Z -> list f64 -> f64).
Variables (L N J_min J : Z) (lam : f64) (Lj Nj L0 : Z -> Z) (Ls : Z).
Hypothesis HL : 1 <= L.
Hypothesis HN : 1 <= N.
Hypothesis HJ : 0 <= J_min <= J.
Hypothesis Esz : forall j, J_min <= j <= J -> LN_j_fp fpow L j N lam true = Ok (Lj j, Nj j, L0 j).
Hypothesis Hsz : forall j, J_min <= j <= J -> 0 <= L0 j <= Lj j /\ 1 <= Lj j <= L /\ 1 <= Nj j <= L.
Hypothesis ELs : scal_bandlimit_fp fpow L J_min lam true = Ok Ls.
Hypothesis HLs : 1 <= Ls <= L.

Notation fzero := (fzero Lj Nj).
Definition wj (psi : arr3 c64) (flm : arr2 c64) (j : Z) : arr3 c64 := wavj L (Lj j) (Nj j) (L0 j) j psi flm.
Notation syn := (syn64 fsum L J_min J Lj Nj L0 Ls).
Definition rk (s : sampling) (nside : option Z) (fw re : bool) (j : Z) : rkern := RKern (Lj j) (Nj j) s nside fw re (L0 j).
Definition wk (s : sampling) (nside : option Z) (fw re : bool) (j : Z) : wkern := WKern (Lj j) (Nj j) re s nside fw.

Lemma gen_wigner64 s nside fw re :
  generate_wigner_precomputes_fp fpow J L N J_min lam s nside fw re = Ok (map (rk s nside fw re) (zrange J_min (J + 1))).
Proof.
  apply for_append; [lia|]. intros i acc Hi. rewrite Esz by lia. reflexivity.
Qed.
Lemma gen_full64 s nside fw re nosph :
  generate_full_precomputes_fp fpow J L N J_min lam s nside fw re nosph
  = Ok (if nosph then None else Some (SKern L 0 re s nside (negb fw)), if nosph then None else Some (SKern Ls 0 re s nside fw),
        map (wk s nside fw re) (zrange J_min J)).
Proof.
  unfold generate_full_precomputes_fp. rewrite (for_append (wk s nside fw re)).
  - cbn [bind]. rewrite ELs. cbn [bind]. now destruct nosph.
  - lia.
  - intros i acc Hi. rewrite Esz by lia. reflexivity.
Qed.
Lemma wk_at s nside fw re j : J_min < J -> Lj (J - 1) = Lj J -> Nj (J - 1) = Nj J -> J_min <= j <= J ->
  lrd (map (wk s nside fw re) (zrange J_min J)) (j - J_min + (if j <? J then 0 else -1)) = Ok (wk s nside fw re j).
Proof.
  intros H0 H1 H2 Hj. destruct (Z.ltb_spec j J).
  - rewrite Z.add_0_r. apply lrd_map. lia.
  - replace (j - J_min + -1) with (J - 1 - J_min) by lia. rewrite lrd_map by lia. assert (j = J) as -> by lia.
    unfold wk. now rewrite H1, H2.
Qed.

Lemma flmn64_ok : construct_flmn_jax_fp fpow L N J_min J lam true = Ok (map fzero (zrange J_min (J + 1))).
Proof. exact (construct_flmn64_ok fpow L N J_min J lam true Lj Nj L0 HJ Esz Hsz). Qed.

Lemma jan64 O f spin s nside reality psi phi p : (p = None \/ p = Some (map (rk s nside false reality) (zrange J_min (J + 1)))) ->
  dim0 psi = J + 1 -> dim1 psi = L -> dim2 psi = 2 * L - 1 -> len1 phi = L ->
  (forall flm, jf64 O f L spin nside s reality = Ok flm -> rows flm = L /\ cols flm = 2 * L - 1) ->
  jax_analysis_fp fpow O J f L N J_min lam spin s nside reality (Some (psi, phi)) p
  = (flm <- fwd64 (jax_lib O) f L spin s nside reality ;;
     w <- mapM (fun j => winv64 (jax_lib O) (wj psi flm j) (Lj j) (Nj j) (L0 j) s reality nside) (zrange J_min (J + 1)) ;;
     sc <- inv64 (jax_lib O) (sca64 L phi flm Ls) Ls spin s nside reality ;;
     Ok (w, sc)).
Proof.
  intros Hp P0 P1 P2 Hphi Hf. unfold jax_analysis_fp.
  assert ((match p with None => generate_wigner_precomputes_fp fpow J L N J_min lam s nside false reality | Some p => Ok p end) = Ok (map (rk s nside false reality) (zrange J_min (J + 1)))) as ->
    by (destruct Hp as [-> | ->]; [apply gen_wigner64|reflexivity]). cbn [bind].
  rewrite ELs. cbn [bind need fst snd]. rewrite (wpsi64_ok L L) by lia. cbn [bind jax_lib fwd64].
  apply bind_ext. intros flm Ef. destruct (Hf flm Ef) as [F1 F2]. rewrite flmn64_ok. cbn [bind].
  rewrite (loop_append fzero (wj psi flm) (fun j => winv64 (jax_lib O) (wj psi flm j) (Lj j) (Nj j) (L0 j) s reality nside)); [|lia|].
  - rewrite bind_assoc. apply bind_ext. intros w _. cbn [bind].
    rewrite (phi64_ok phi L) by auto. cbn [bind]. rewrite scal_an64 by auto. cbn [bind]. reflexivity.
  - intros j l fw Hj Hl. rewrite Esz by lia. cbn [bind]. rewrite Hl. cbn [bind].
    destruct (Hsz j) as (? & ? & ?); [lia|].
    rewrite islice64_ok by (unfold wpsi64; cbn [dim0 dim1 dim2 mk3]; lia). cbn [bind].
    rewrite einsum_an64 by lia. cbn [bind]. unfold FloatTransFacts.fzero. rewrite upd_anj by lia. cbn [bind].
    fold (wj psi flm j). apply bind_ext. intros l' _. rewrite lrd_map by lia. reflexivity.
Qed.

Lemma pan64 O f spin s nside reality psi phi : J_min < J -> Lj (J - 1) = Lj J -> Nj (J - 1) = Nj J ->
  dim0 psi = J + 1 -> dim1 psi = L -> dim2 psi = 2 * L - 1 -> len1 phi = L ->
  (forall flm, fwd64 (pre_lib O) f L spin s nside reality = Ok flm -> rows flm = L /\ cols flm = 2 * L - 1) ->
  pre_analysis_fp fpow O J f L N J_min lam spin s nside reality (Some (psi, phi))
    (Some (Some (SKern L 0 reality s nside true), Some (SKern Ls 0 reality s nside false), map (wk s nside false reality) (zrange J_min J)))
  = (flm <- fwd64 (pre_lib O) f L spin s nside reality ;;
     w <- mapM (fun j => winv64 (pre_lib O) (wj psi flm j) (Lj j) (Nj j) (L0 j) s reality nside) (zrange J_min (J + 1)) ;;
     sc <- inv64 (pre_lib O) (sca64 L phi flm Ls) Ls spin s nside reality ;;
     Ok (w, sc)).
Proof.
  intros HJ1 HJ2 HJ3 P0 P1 P2 Hphi Hf. unfold pre_analysis_fp.
  rewrite ELs. cbn [bind need fst snd]. rewrite (wpsi64_ok L L) by lia. cbn [bind].
  apply bind_ext. intros flm Ef. destruct (Hf flm Ef) as [F1 F2]. rewrite flmn64_ok. cbn [bind].
  rewrite (loop_append fzero (wj psi flm) (fun j => winv64 (pre_lib O) (wj psi flm j) (Lj j) (Nj j) (L0 j) s reality nside)); [|lia|].
  - rewrite bind_assoc. apply bind_ext. intros w _. cbn [bind].
    rewrite (phi64_ok phi L) by auto. cbn [bind]. rewrite scal_an64 by auto. cbn [bind]. reflexivity.
  - intros j l fw Hj Hl. rewrite Esz by lia. cbn [bind]. rewrite Hl. cbn [bind].
    destruct (Hsz j) as (? & ? & ?); [lia|].
    rewrite islice64_ok by (unfold wpsi64; cbn [dim0 dim1 dim2 mk3]; lia). cbn [bind].
    rewrite einsum_an64 by lia. cbn [bind]. unfold FloatTransFacts.fzero. rewrite upd_anj by lia. cbn [bind].
    fold (wj psi flm j). apply bind_ext. intros l' _. rewrite wk_at by (auto; lia). reflexivity.
Qed.

Section Syn.
Variables (psi : arr3 c64) (phi : arr1 f64).
Hypothesis P0 : dim0 psi = J + 1.
Hypothesis P1 : dim1 psi = L.
Hypothesis P2 : dim2 psi = 2 * L - 1.
Hypothesis P3 : len1 phi = L.
Hypothesis HL2 : 2 <= L.

Lemma jsy64 O f_wav f_scal spin s nside reality p : (p = None \/ p = Some (map (rk s nside true reality) (zrange J_min (J + 1)))) ->
  (forall S, fwd64 (jax_lib O) f_scal Ls spin s nside reality = Ok S -> rows S = Ls /\ cols S = 2 * Ls - 1) ->
  (forall j fj T, J_min <= j <= J -> lrd f_wav (j - J_min) = Ok fj ->
     wfwd64 (jax_lib O) fj (Lj j) (Nj j) (L0 j) s reality nside = Ok T ->
     dim0 T = 2 * Nj j - 1 /\ dim1 T = Lj j /\ dim2 T = 2 * Lj j - 1) ->
  jax_synthesis_fp fpow fsum O J f_wav f_scal L N J_min lam spin s nside reality (Some (psi, phi)) p
  = (S <- fwd64 (jax_lib O) f_scal Ls spin s nside reality ;;
     Ts <- mapM (fun j => fj <- lrd f_wav (j - J_min) ;; wfwd64 (jax_lib O) fj (Lj j) (Nj j) (L0 j) s reality nside) (zrange J_min (J + 1)) ;;
     inv64 (jax_lib O) (syn psi phi Ts S) L spin s nside reality).
Proof.
  intros Hp HS HT. unfold jax_synthesis_fp.
  assert ((match p with None => generate_wigner_precomputes_fp fpow J L N J_min lam s nside true reality | Some p => Ok p end) = Ok (map (rk s nside true reality) (zrange J_min (J + 1)))) as ->
    by (destruct Hp as [-> | ->]; [apply gen_wigner64|reflexivity]). cbn [bind].
  rewrite ELs. cbn [bind]. rewrite zeros2_ok by lia. cbn [bind]. cbn [jax_lib fwd64] in *. apply bind_ext. intros S ES. cbn [need bind fst snd].
  rewrite (loop_fold L (2 * L - 1) nd30 _ (fun j T => step64 L (Lj j) (Nj j) (L0 j) j fsum psi T)
    (fun j => fj <- lrd f_wav (j - J_min) ;; wfwd64 (jax_lib O) fj (Lj j) (Nj j) (L0 j) s reality nside)); [|lia| |].
  - rewrite bind_assoc. apply bind_ext. intros Ts _. cbn [bind]. destruct (HS S ES).
    rewrite (phi64_ok phi L) by auto. cbn [bind]. rewrite scal_sy64 by lia. cbn [bind].
    rewrite scal_up64 by auto. cbn [bind inv64 jax_lib]. replace (L =? 1) with false by zb. reflexivity.
  - intros j g T Hj E. apply bind_inv in E as (fj & E1 & E2). rewrite Esz by lia. cbn [bind]. rewrite E1. cbn [bind].
    rewrite lrd_map by lia. cbn [bind]. change (jwf64 O fj (Lj j) (Nj j) nside s reality (rk s nside true reality j) (L0 j) = Ok T) in E2. rewrite E2. cbn [bind].
    destruct (HT j fj T) as (T0 & T1 & T2); auto; [lia|]. destruct (Hsz j) as (? & ? & ?); [lia|].
    rewrite islice64_ok by lia. cbn [bind]. rewrite einsum_sy64 by lia. cbn [bind]. apply upd_sy64; lia.
  - intros j g e Hj E. rewrite Esz by lia. cbn [bind]. destruct (lrd f_wav (j - J_min)) as [fj|]; cbn [bind] in *; [|congruence].
    rewrite lrd_map by lia. cbn [bind]. change (jwf64 O fj (Lj j) (Nj j) nside s reality (rk s nside true reality j) (L0 j) = Err e) in E. rewrite E. reflexivity.
Qed.

Lemma psy64 O f_wav f_scal spin s nside reality : J_min < J -> Lj (J - 1) = Lj J -> Nj (J - 1) = Nj J ->
  (forall S, fwd64 (pre_lib O) f_scal Ls spin s nside reality = Ok S -> rows S = Ls /\ cols S = 2 * Ls - 1) ->
  (forall j fj T, J_min <= j <= J -> lrd f_wav (j - J_min) = Ok fj ->
     wfwd64 (pre_lib O) fj (Lj j) (Nj j) (L0 j) s reality nside = Ok T ->
     dim0 T = 2 * Nj j - 1 /\ dim1 T = Lj j /\ dim2 T = 2 * Lj j - 1) ->
  pre_synthesis_fp fpow fsum O J f_wav f_scal L N J_min lam spin s nside reality (Some (psi, phi))
    (Some (Some (SKern L 0 reality s nside false), Some (SKern Ls 0 reality s nside true), map (wk s nside true reality) (zrange J_min J)))
  = (S <- fwd64 (pre_lib O) f_scal Ls spin s nside reality ;;
     Ts <- mapM (fun j => fj <- lrd f_wav (j - J_min) ;; wfwd64 (pre_lib O) fj (Lj j) (Nj j) (L0 j) s reality nside) (zrange J_min (J + 1)) ;;
     inv64 (pre_lib O) (syn psi phi Ts S) L spin s nside reality).
Proof.
  intros HJ1 HJ2 HJ3 HS HT. unfold pre_synthesis_fp.
  rewrite ELs. cbn [bind]. rewrite zeros2_ok by lia. cbn [bind need]. cbn [pre_lib fwd64] in *. apply bind_ext. intros S ES. cbn [need bind fst snd].
  rewrite (loop_fold L (2 * L - 1) nd30 _ (fun j T => step64 L (Lj j) (Nj j) (L0 j) j fsum psi T)
    (fun j => fj <- lrd f_wav (j - J_min) ;; wfwd64 (pre_lib O) fj (Lj j) (Nj j) (L0 j) s reality nside)); [|lia| |].
  - rewrite bind_assoc. apply bind_ext. intros Ts _. cbn [bind]. destruct (HS S ES).
    rewrite (phi64_ok phi L) by auto. cbn [bind]. rewrite scal_sy64 by lia. cbn [bind].
    rewrite scal_up64 by auto. cbn [bind inv64 pre_lib]. replace (L =? 1) with false by zb. reflexivity.
  - intros j g T Hj E. apply bind_inv in E as (fj & E1 & E2). rewrite Esz by lia. cbn [bind]. rewrite E1. cbn [bind].
    rewrite wk_at by (auto; lia). cbn [bind]. change (pwf64 O fj (wk s nside true reality j) (Lj j) (Nj j) s reality nside = Ok T) in E2. rewrite E2. cbn [bind].
    destruct (HT j fj T) as (T0 & T1 & T2); auto; [lia|]. destruct (Hsz j) as (? & ? & ?); [lia|].
    rewrite islice64_ok by lia. cbn [bind]. rewrite einsum_sy64 by lia. cbn [bind]. apply upd_sy64; lia.
  - intros j g e Hj E. rewrite Esz by lia. cbn [bind]. destruct (lrd f_wav (j - J_min)) as [fj|]; cbn [bind] in *; [|congruence].
    rewrite wk_at by (auto; lia). cbn [bind]. change (pwf64 O fj (wk s nside true reality j) (Lj j) (Nj j) s reality nside = Err e) in E. rewrite E. reflexivity.
Qed.
End Syn.
End Tr.
