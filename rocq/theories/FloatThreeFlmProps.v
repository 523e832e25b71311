(** Statements and proofs for PropertiesFloatThreeFlm.v *)

From Coq Require Import ZArith Reals List Bool Permutation Lia Lra.
From Flocq Require Import Core Relative IEEE754.BinarySingleNaN.
From Verif Require Import Py PyFacts ModelSamples SamplesFacts ModelFilters ModelTransforms Spec FiltersFacts DirectionFacts DirFilterFacts TransformsFacts BackendFacts RoundFacts.
From Verif Require Import ModelFloat ModelFloatDir ModelFloatTrans ModelFloatJaxFilt ModelFloatJax ModelFloatBack SpecFp SpecFpTrans SpecFpJax SpecFpBack SpecThree FloatProps FloatFacts FloatFilterProps
  FloatDirFilterProps FloatTransFacts FloatTransProps FloatJaxFacts FloatBackFacts FloatBackProps FloatJaxFiltProps FloatThreeProps FloatThreeTransProps.
Import ListNotations.
Open Scope Z_scope.

(*T Wavelet coefficients from harmonic coefficients with dilation 3 in binary64 *)
(*! From Coq Require Import ZArith Reals List Bool. *)
(*! From Flocq Require Import Core IEEE754.BinarySingleNaN. *)
(*! Import ListNotations. *)
(*! From Verif Require Import Py ModelSamples ModelFloat ModelFloatDir ModelFloatTrans ModelFloatJaxFilt ModelFloatJax ModelFloatBack SpecFp SpecFpTrans SpecFpJax SpecFpBack SpecThree. *)

Notation wj3 L N psi flm := (wj L (fun j => Lj_of L j 3 true) (fun j => Nj_of L j N 3 true) (fun j => L0_of j 3 true) psi flm).
Lemma flm3 O J L N J_min Jt s nside reality psi flm w : 795 <= L <= 2 ^ 50 -> 1 <= N <= L -> j_max L 3 = Ok J -> 0 <= J_min <= 6 -> 6 <= Jt <= J ->
  (forall i, 0 <= i < 2 * L - 1 -> is_finite (fst (get3 psi 6 794 i)) = false) ->
  mapM (fun j => winv64 O (wj3 L N psi flm j) (Lj_of L j 3 true) (Nj_of L j N 3 true) (L0_of j 3 true) s reality nside) (zrange J_min (Jt + 1)) = Ok w ->
  exists flmn Lj Nj L0j y, LN_j L 6 N 3 true = Ok (Lj, Nj, L0j) /\ (6 - J_min < Z.of_nat (length w) /\ nth_error w (Z.to_nat (6 - J_min)) = Some y) /\
    winv64 O flmn Lj Nj L0j s reality nside = Ok y /\
    forall n m, Z.abs n < Nj -> (n - N) mod 2 = 1 -> Z.abs m < Lj -> is_finite (fst (get3 flmn (Nj - 1 + n) 794 (Lj - 1 + m))) = false.
Proof.
  intros HL HN EJ HJm HJt HI Ew. apply mapM_inv in Ew as [Lw Ew]. rewrite zrange_length in Lw.
  destruct (Ew (Z.to_nat (6 - J_min)) 6) as (y & Ey & Ny).
  { rewrite nth_error_zrange by lia. f_equal. lia. }
  exists (wj3 L N psi flm 6), (Lj_of L 6 3 true), (Nj_of L 6 N 3 true), (L0_of 6 3 true), y.
  split; [apply LN_j_ok; lra|]. split; [split; [lia|exact Ny]|]. split; [exact Ey|].
  intros n m Hn Hp Hm. destruct (six L true ltac:(lia)) as [H0 HLj].
  destruct (sz_facts L N J 3 true ltac:(lia) ltac:(lia) ltac:(lra) EJ 6 ltac:(lia)) as (Z1 & Z2 & Z3 & Z4).
  unfold wj, wavj. rewrite get3_mk by lia. rewrite (par3 L N true n ltac:(lia) ltac:(lia) Hp). destruct (Z.leb_spec (L0_of 6 3 true) 794); [|lia]. cbn [andb].
  apply nf_cadd_r, nf_cmul_r, nf_cmul_l. cbn [fst cconj64]. apply HI. lia.
Qed.

(*% whatever the harmonic coefficients: the JAX backend, up to the scale requested *)
(*@ C90_jax_wavelet_coefficients *)
Lemma fp3_jax_flm : forall fexp fpow flg jlg jexp O J flm L N J_min J_max Jt spin s nside reality psi phi q p w,
  795 <= L <= 2 ^ 50 -> 1 <= N <= L -> j_max L 3 = Ok J -> J_min <= 6 -> Z.abs spin <= 794 ->
  accurate_exp fexp -> overflowing_exp fexp -> powers_of_three fpow J ->
  filters_directional_vectorised_fp fexp fpow flg J L N J_min (fint 3) spin 0 = Ok (psi, phi) \/
  filters_directional_jax_fp fexp fpow jlg jexp J L N J_min (fint 3) spin 0 = Ok (psi, phi) ->
  6 <= Jt <= J -> J_max = Some Jt \/ J_max = None /\ Jt = J ->
  generate_wigner_precomputes_fp fpow J L N J_min (fint 3) s nside false reality = Ok q -> p = None \/ p = Some q ->
  rows flm = L -> cols flm = 2 * L - 1 ->
  jax_flm_to_analysis_fp fpow O J flm L N J_min J_max (fint 3) s nside reality (Some psi) p = Ok w ->
  exists flmn Lj Nj L0j y, LN_j L 6 N 3 true = Ok (Lj, Nj, L0j) /\ lrd w (6 - J_min) = Ok y /\
    winv64 (jax_lib O) flmn Lj Nj L0j s reality nside = Ok y /\
    forall n m, Z.abs n < Nj -> (n - N) mod 2 = 1 -> Z.abs m < Lj -> is_finite (fst (get3 flmn (Nj - 1 + n) 794 (Lj - 1 + m))) = false.
Proof.
  intros fexp fpow flg jlg jexp O J flm L N J_min J_max Jt spin s nside reality psi phi q p w HL HN EJ HJm Hs HE HO HP EF HJt HJx Eq Hp R1 R2 E.
  pose proof (J3 L J HL EJ) as HJ. assert (HL' : 795 <= L <= 2 ^ 53) by (change (2 ^ 50) with 1125899906842624 in HL; lia).
  destruct (filt3 fexp fpow flg jlg jexp J L N J_min spin psi phi HL' ltac:(lia) HJm Hs HE HO HP EF) as ((D0 & D1 & D2 & D3 & D4) & HI).
  pose proof (szs3 fpow L N J true ltac:(lia) ltac:(lia) HP) as SZ.
  destruct (top3 L N J ltac:(lia) EJ ltac:(lia)) as [TS1 TS2].
  assert (SZ' : forall j, J_min <= j <= J -> LN_j_fp fpow L j N (fint 3) true = Ok (Lj_of L j 3 true, Nj_of L j N 3 true, L0_of j 3 true)) by (intros; apply SZ; lia).
  assert (HLs : 1 <= Ls_of L J_min 3 true <= L) by (apply (Ls_range L J_min 3 true); [lia|lra]).
  pose proof (proj2 (SZ J_min ltac:(lia))) as SL.
  assert (Szj : forall j, J_min <= j <= J -> 0 <= L0_of j 3 true <= Lj_of L j 3 true /\ 1 <= Lj_of L j 3 true <= L /\ 1 <= Nj_of L j N 3 true <= L).
  { intros j Hj. destruct (sz_facts L N J 3 true ltac:(lia) ltac:(lia) ltac:(lra) EJ j ltac:(lia)) as (Z1 & Z2 & Z3 & Z4). lia. }
  rewrite (jfl64 fpow L N J_min Jt (fint 3) (fun j => Lj_of L j 3 true) (fun j => Nj_of L j N 3 true) (fun j => L0_of j 3 true)) with (q := q) in E; auto; try lia.
  - destruct (flm3 (jax_lib O) J L N J_min Jt s nside reality psi flm w HL HN EJ ltac:(lia) ltac:(lia) HI E) as (flmn & Lj & Nj & L0j & y & A & [B1 B2] & C).
    exists flmn, Lj, Nj, L0j, y. split; [exact A|]. split; [apply lrd_nth; [lia|exact B2]|exact C].
  - intros j Hj. apply SZ. lia.
  - intros j Hj. apply Szj. lia.
  - destruct HJx as [-> |[-> ->]]; reflexivity.
  - destruct Hp as [-> | ->]; auto.
  - intros j Hj. rewrite (gen_wigner64 fpow L N J_min J (fint 3) (fun j => Lj_of L j 3 true) (fun j => Nj_of L j N 3 true) (fun j => L0_of j 3 true)) in Eq by (auto; lia). apply Ok_inj in Eq. subst q. apply lrd_map. lia.
Qed.

(*% the precompute backend, with the kernels of generate_full_precomputes *)
(*@ C90_precompute_wavelet_coefficients *)
Lemma fp3_precompute_flm : forall fexp fpow flg jlg jexp O J flm L N J_min J_max spin s nside reality psi phi q nosph w,
  795 <= L <= 2 ^ 50 -> 1 <= N <= L -> j_max L 3 = Ok J -> J_min <= 6 -> Z.abs spin <= 794 ->
  accurate_exp fexp -> overflowing_exp fexp -> powers_of_three fpow J ->
  filters_directional_vectorised_fp fexp fpow flg J L N J_min (fint 3) spin 0 = Ok (psi, phi) \/
  filters_directional_jax_fp fexp fpow jlg jexp J L N J_min (fint 3) spin 0 = Ok (psi, phi) ->
  J_max = Some J \/ J_max = None ->
  generate_full_precomputes_fp fpow J L N J_min (fint 3) s nside false reality nosph = Ok q ->
  rows flm = L -> cols flm = 2 * L - 1 ->
  pre_flm_to_analysis_fp fpow O J flm L N J_min J_max (fint 3) s nside reality (Some psi) (Some q) = Ok w ->
  exists flmn Lj Nj L0j y, LN_j L 6 N 3 true = Ok (Lj, Nj, L0j) /\ lrd w (6 - J_min) = Ok y /\
    winv64 (pre_lib O) flmn Lj Nj L0j s reality nside = Ok y /\
    forall n m, Z.abs n < Nj -> (n - N) mod 2 = 1 -> Z.abs m < Lj -> is_finite (fst (get3 flmn (Nj - 1 + n) 794 (Lj - 1 + m))) = false.
Proof.
  intros fexp fpow flg jlg jexp O J flm L N J_min J_max spin s nside reality psi phi q nosph w HL HN EJ HJm Hs HE HO HP EF HJx Eq R1 R2 E.
  pose proof (J3 L J HL EJ) as HJ. assert (HL' : 795 <= L <= 2 ^ 53) by (change (2 ^ 50) with 1125899906842624 in HL; lia).
  destruct (filt3 fexp fpow flg jlg jexp J L N J_min spin psi phi HL' ltac:(lia) HJm Hs HE HO HP EF) as ((D0 & D1 & D2 & D3 & D4) & HI).
  pose proof (szs3 fpow L N J true ltac:(lia) ltac:(lia) HP) as SZ.
  destruct (top3 L N J ltac:(lia) EJ ltac:(lia)) as [TS1 TS2].
  assert (SZ' : forall j, J_min <= j <= J -> LN_j_fp fpow L j N (fint 3) true = Ok (Lj_of L j 3 true, Nj_of L j N 3 true, L0_of j 3 true)) by (intros; apply SZ; lia).
  assert (HLs : 1 <= Ls_of L J_min 3 true <= L) by (apply (Ls_range L J_min 3 true); [lia|lra]).
  pose proof (proj2 (SZ J_min ltac:(lia))) as SL.
  assert (Szj : forall j, J_min <= j <= J -> 0 <= L0_of j 3 true <= Lj_of L j 3 true /\ 1 <= Lj_of L j 3 true <= L /\ 1 <= Nj_of L j N 3 true <= L).
  { intros j Hj. destruct (sz_facts L N J 3 true ltac:(lia) ltac:(lia) ltac:(lra) EJ j ltac:(lia)) as (Z1 & Z2 & Z3 & Z4). lia. }
  rewrite (gen_full64 fpow L N J_min J (fint 3) (fun j => Lj_of L j 3 true) (fun j => Nj_of L j N 3 true) (fun j => L0_of j 3 true) (Ls_of L J_min 3 true)) in Eq by (auto; lia). apply Ok_inj in Eq. subst q. cbn [negb] in E.
  rewrite (pfl64 fpow L N J_min J (fint 3) (fun j => Lj_of L j 3 true) (fun j => Nj_of L j N 3 true) (fun j => L0_of j 3 true)) in E; auto; try lia.
  - destruct (flm3 (pre_lib O) J L N J_min J s nside reality psi flm w HL HN EJ ltac:(lia) ltac:(lia) HI E) as (flmn & Lj & Nj & L0j & y & A & [B1 B2] & C).
    exists flmn, Lj, Nj, L0j, y. split; [exact A|]. split; [apply lrd_nth; [lia|exact B2]|exact C].
  - destruct HJx as [-> | ->]; reflexivity.
  - intros j Hj. apply (wk_at J_min J (fun j => Lj_of L j 3 true) (fun j => Nj_of L j N 3 true)); auto; lia.
Qed.

(*% the PyTorch backend, with the same kernels *)
(*@ C90_torch_wavelet_coefficients *)
Lemma fp3_torch_flm : forall fexp fpow flg jlg jexp O J flm L N J_min J_max spin s nside reality psi phi q nosph w,
  795 <= L <= 2 ^ 50 -> 1 <= N <= L -> j_max L 3 = Ok J -> J_min <= 6 -> Z.abs spin <= 794 ->
  accurate_exp fexp -> overflowing_exp fexp -> powers_of_three fpow J ->
  filters_directional_vectorised_fp fexp fpow flg J L N J_min (fint 3) spin 0 = Ok (psi, phi) \/
  filters_directional_jax_fp fexp fpow jlg jexp J L N J_min (fint 3) spin 0 = Ok (psi, phi) ->
  J_max = Some J \/ J_max = None ->
  generate_full_precomputes_fp fpow J L N J_min (fint 3) s nside false reality nosph = Ok q ->
  rows flm = L -> cols flm = 2 * L - 1 ->
  torch_flm_to_analysis_fp fpow O J flm L N J_min J_max (fint 3) s nside reality (Some psi) (Some q) = Ok w ->
  exists flmn Lj Nj L0j y, LN_j L 6 N 3 true = Ok (Lj, Nj, L0j) /\ lrd w (6 - J_min) = Ok (Some y) /\
    winv64 (torch_lib O) flmn Lj Nj L0j s reality nside = Ok y /\
    forall n m, Z.abs n < Nj -> (n - N) mod 2 = 1 -> Z.abs m < Lj -> is_finite (fst (get3 flmn (Nj - 1 + n) 794 (Lj - 1 + m))) = false.
Proof.
  intros fexp fpow flg jlg jexp O J flm L N J_min J_max spin s nside reality psi phi q nosph w HL HN EJ HJm Hs HE HO HP EF HJx Eq R1 R2 E.
  pose proof (J3 L J HL EJ) as HJ. assert (HL' : 795 <= L <= 2 ^ 53) by (change (2 ^ 50) with 1125899906842624 in HL; lia).
  destruct (filt3 fexp fpow flg jlg jexp J L N J_min spin psi phi HL' ltac:(lia) HJm Hs HE HO HP EF) as ((D0 & D1 & D2 & D3 & D4) & HI).
  pose proof (szs3 fpow L N J true ltac:(lia) ltac:(lia) HP) as SZ.
  destruct (top3 L N J ltac:(lia) EJ ltac:(lia)) as [TS1 TS2].
  assert (SZ' : forall j, J_min <= j <= J -> LN_j_fp fpow L j N (fint 3) true = Ok (Lj_of L j 3 true, Nj_of L j N 3 true, L0_of j 3 true)) by (intros; apply SZ; lia).
  assert (HLs : 1 <= Ls_of L J_min 3 true <= L) by (apply (Ls_range L J_min 3 true); [lia|lra]).
  pose proof (proj2 (SZ J_min ltac:(lia))) as SL.
  assert (Szj : forall j, J_min <= j <= J -> 0 <= L0_of j 3 true <= Lj_of L j 3 true /\ 1 <= Lj_of L j 3 true <= L /\ 1 <= Nj_of L j N 3 true <= L).
  { intros j Hj. destruct (sz_facts L N J 3 true ltac:(lia) ltac:(lia) ltac:(lra) EJ j ltac:(lia)) as (Z1 & Z2 & Z3 & Z4). lia. }
  rewrite (gen_full64 fpow L N J_min J (fint 3) (fun j => Lj_of L j 3 true) (fun j => Nj_of L j N 3 true) (fun j => L0_of j 3 true) (Ls_of L J_min 3 true)) in Eq by (auto; lia). apply Ok_inj in Eq. subst q. cbn [negb] in E.
  rewrite (tfl64 fpow L N J_min J (fint 3) (fun j => Lj_of L j 3 true) (fun j => Nj_of L j N 3 true) (fun j => L0_of j 3 true)) in E; auto; try lia.
  - apply bind_inv in E as (w' & E & E'). apply Ok_inj in E'. subst w.
    destruct (flm3 (torch_lib O) J L N J_min J s nside reality psi flm w' HL HN EJ ltac:(lia) ltac:(lia) HI E) as (flmn & Lj & Nj & L0j & y & A & [B1 B2] & C).
    exists flmn, Lj, Nj, L0j, y. split; [exact A|]. split; [|exact C].
    apply lrd_nth; [rewrite map_length; lia|rewrite nth_error_map, B2; reflexivity].
  - destruct HJx as [-> | ->]; reflexivity.
  - intros j Hj. apply (wk_at J_min J (fun j => Lj_of L j 3 true) (fun j => Nj_of L j N 3 true)); auto; lia.
Qed.

(*% the C backend (SSHT) *)
(*@ C90_ssht_wavelet_coefficients *)
Lemma fp3_ssht_flm : forall fexp fpow flg jlg jexp O J flm L N J_min J_max Jt spin s nside reality psi phi w,
  795 <= L <= 2 ^ 50 -> 1 <= N <= L -> j_max L 3 = Ok J -> J_min <= 6 -> Z.abs spin <= 794 ->
  accurate_exp fexp -> overflowing_exp fexp -> powers_of_three fpow J ->
  filters_directional_vectorised_fp fexp fpow flg J L N J_min (fint 3) spin 0 = Ok (psi, phi) \/
  filters_directional_jax_fp fexp fpow jlg jexp J L N J_min (fint 3) spin 0 = Ok (psi, phi) ->
  6 <= Jt <= J -> J_max = Some Jt \/ J_max = None /\ Jt = J ->
  rows flm = L -> cols flm = 2 * L - 1 ->
  ssht_flm_to_analysis_fp fpow O J flm L N J_min J_max (fint 3) s reality (Some psi) = Ok w ->
  exists flmn Lj Nj L0j y, LN_j L 6 N 3 true = Ok (Lj, Nj, L0j) /\ lrd w (6 - J_min) = Ok y /\
    winv64 (ssht_lib O) flmn Lj Nj L0j s reality nside = Ok y /\
    forall n m, Z.abs n < Nj -> (n - N) mod 2 = 1 -> Z.abs m < Lj -> is_finite (fst (get3 flmn (Nj - 1 + n) 794 (Lj - 1 + m))) = false.
Proof.
  intros fexp fpow flg jlg jexp O J flm L N J_min J_max Jt spin s nside reality psi phi w HL HN EJ HJm Hs HE HO HP EF HJt HJx R1 R2 E.
  pose proof (J3 L J HL EJ) as HJ. assert (HL' : 795 <= L <= 2 ^ 53) by (change (2 ^ 50) with 1125899906842624 in HL; lia).
  destruct (filt3 fexp fpow flg jlg jexp J L N J_min spin psi phi HL' ltac:(lia) HJm Hs HE HO HP EF) as ((D0 & D1 & D2 & D3 & D4) & HI).
  pose proof (szs3 fpow L N J true ltac:(lia) ltac:(lia) HP) as SZ.
  destruct (top3 L N J ltac:(lia) EJ ltac:(lia)) as [TS1 TS2].
  assert (SZ' : forall j, J_min <= j <= J -> LN_j_fp fpow L j N (fint 3) true = Ok (Lj_of L j 3 true, Nj_of L j N 3 true, L0_of j 3 true)) by (intros; apply SZ; lia).
  assert (HLs : 1 <= Ls_of L J_min 3 true <= L) by (apply (Ls_range L J_min 3 true); [lia|lra]).
  pose proof (proj2 (SZ J_min ltac:(lia))) as SL.
  assert (Szj : forall j, J_min <= j <= J -> 0 <= L0_of j 3 true <= Lj_of L j 3 true /\ 1 <= Lj_of L j 3 true <= L /\ 1 <= Nj_of L j N 3 true <= L).
  { intros j Hj. destruct (sz_facts L N J 3 true ltac:(lia) ltac:(lia) ltac:(lra) EJ j ltac:(lia)) as (Z1 & Z2 & Z3 & Z4). lia. }
  rewrite (cfl64 fpow L N J_min Jt (fint 3) (fun j => Lj_of L j 3 true) (fun j => Nj_of L j N 3 true) (fun j => L0_of j 3 true)) with (nside := nside) in E; auto; try lia.
  - destruct (flm3 (ssht_lib O) J L N J_min Jt s nside reality psi flm w HL HN EJ ltac:(lia) ltac:(lia) HI E) as (flmn & Lj & Nj & L0j & y & A & [B1 B2] & C).
    exists flmn, Lj, Nj, L0j, y. split; [exact A|]. split; [apply lrd_nth; [lia|exact B2]|exact C].
  - intros j Hj. apply SZ. lia.
  - intros j Hj. apply Szj. lia.
  - destruct HJx as [-> |[-> ->]]; reflexivity.
Qed.

(*% L = 1000 (J = 7), N = 1, J_min = 6 and vanishing harmonic coefficients; the JAX and C backends stop at scale 6 *)
(*@E C90_wavelet_coefficients_example *)
Lemma ex_c90_flm : exists fexp fpow flg Oj O flm psi phi qw qa w w' w'' w3, accurate_exp fexp /\ overflowing_exp fexp /\ powers_of_three fpow 7 /\ j_max 1000 3 = Ok 7 /\
  filters_directional_vectorised_fp fexp fpow flg 7 1000 1 6 (fint 3) 0 0 = Ok (psi, phi) /\
  generate_wigner_precomputes_fp fpow 7 1000 1 6 (fint 3) MW None false false = Ok qw /\
  generate_full_precomputes_fp fpow 7 1000 1 6 (fint 3) MW None false false false = Ok qa /\
  rows flm = 1000 /\ cols flm = 2 * 1000 - 1 /\ (forall l q, 0 <= l < 1000 -> 0 <= q < 1999 -> get2 flm l q = creal (fint 0)) /\
  jax_flm_to_analysis_fp fpow Oj 7 flm 1000 1 6 (Some 6) (fint 3) MW None false (Some psi) None = Ok w /\
  pre_flm_to_analysis_fp fpow Oj 7 flm 1000 1 6 None (fint 3) MW None false (Some psi) (Some qa) = Ok w' /\
  torch_flm_to_analysis_fp fpow O 7 flm 1000 1 6 None (fint 3) MW None false (Some psi) (Some qa) = Ok w'' /\
  ssht_flm_to_analysis_fp fpow O 7 flm 1000 1 6 (Some 6) (fint 3) MW false (Some psi) = Ok w3 /\
  exists y y', lrd w 0 = Ok y /\ lrd w' 0 = Ok y' /\ is_finite (fst (ndat64 y [0; 794; 999])) = false /\ is_finite (fst (ndat64 y' [0; 794; 999])) = false.
Proof.
  destruct big_exp_ok as [H1 H2]. pose proof (pow3_ok 7) as H3.
  assert (HM : exists flm : arr2 c64, rows flm = 1000 /\ cols flm = 2 * 1000 - 1 /\ forall l q, 0 <= l < 1000 -> 0 <= q < 1999 -> get2 flm l q = creal (fint 0)).
  { exists (mk2 1000 (2 * 1000 - 1) (fun _ _ => creal (fint 0))). split; [reflexivity|]. split; [reflexivity|]. intros l q Hl Hq. apply get2_mk; lia. }
  destruct HM as (flm & R1 & R2 & R3).
  destruct (fp3_filters_total big_exp pow3 7 1000 6 ltac:(lia) ltac:(lia) ltac:(lia) H3) as (_ & (kpsi & kphi & EA) & _).
  destruct (vec_fp_inv _ _ _ _ _ _ _ _ EA) as (R & k & _ & Rp & Cp & Lp & _).
  assert (HF : SpecFpDir.float_powers 1000 1) by (left; lia).
  pose proof (dir_vec_fp_ok big_exp pow3 (fun x => x) 7 1000 1 6 (fint 3) 0 kpsi kphi ltac:(lia) HF ltac:(lia) EA Rp Cp Lp) as EF.
  match type of EF with _ = Ok (?p, ?f) => set (psi := p) in EF; set (phi := f) in EF end. clearbody psi phi.
  destruct (dims3 big_exp pow3 (fun x => x) 7 1000 1 6 0 psi phi ltac:(lia) EF) as (D0 & D1 & D2 & D3 & D4).
  pose proof (szs3 pow3 1000 1 7 true ltac:(lia) ltac:(lia) H3) as SZ. pose proof jm3 as EJ.
  assert (HLs : 1 <= Ls_of 1000 6 3 true <= 1000) by (apply (Ls_range 1000 6 3 true); [lia|lra]).
  destruct (top3 1000 1 7 ltac:(lia) EJ ltac:(lia)) as [TS1 TS2].
  assert (SZ' : forall j, 6 <= j <= 7 -> LN_j_fp pow3 1000 j 1 (fint 3) true = Ok (Lj_of 1000 j 3 true, Nj_of 1000 j 1 3 true, L0_of j 3 true)) by (intros; apply SZ; lia).
  pose proof (proj2 (SZ 6 ltac:(lia))) as SL.
  assert (Szj : forall j, 6 <= j <= 7 -> 0 <= L0_of j 3 true <= Lj_of 1000 j 3 true /\ 1 <= Lj_of 1000 j 3 true <= 1000 /\ 1 <= Nj_of 1000 j 1 3 true <= 1000).
  { intros j Hj. destruct (sz_facts 1000 1 7 3 true ltac:(lia) ltac:(lia) ltac:(lra) EJ j ltac:(lia)) as (Z1 & Z2 & Z3 & Z4). lia. }
  pose proof (gen_wigner64 pow3 1000 1 6 7 (fint 3) (fun j => Lj_of 1000 j 3 true) (fun j => Nj_of 1000 j 1 3 true) (fun j => L0_of j 3 true) ltac:(lia) SZ' MW None false false) as Qw.
  pose proof (gen_full64 pow3 1000 1 6 7 (fint 3) (fun j => Lj_of 1000 j 3 true) (fun j => Nj_of 1000 j 1 3 true) (fun j => L0_of j 3 true) (Ls_of 1000 6 3 true) ltac:(lia) SZ' SL MW None false false false) as Qa.
  assert (WK : forall j, 6 <= j <= 7 -> lrd (map (wk (fun j => Lj_of 1000 j 3 true) (fun j => Nj_of 1000 j 1 3 true) MW None false false) (zrange 6 7)) (j - 6 + (if j <? 7 then 0 else -1))
    = Ok (wk (fun j => Lj_of 1000 j 3 true) (fun j => Nj_of 1000 j 1 3 true) MW None false false j)).
  { intros j Hj. apply (wk_at 6 7 (fun j => Lj_of 1000 j 3 true) (fun j => Nj_of 1000 j 1 3 true)); auto; lia. }
  cbn [negb] in Qa. match type of Qa with _ = Ok ?q => set (qa := q) in Qa end. match type of Qw with _ = Ok ?q => set (qw := q) in Qw end.
  assert (G1 : exists w, jax_flm_to_analysis_fp pow3 jst 7 flm 1000 1 6 (Some 6) (fint 3) MW None false (Some psi) None = Ok w).
  { rewrite (jfl64 pow3 1000 1 6 6 (fint 3) (fun j => Lj_of 1000 j 3 true) (fun j => Nj_of 1000 j 1 3 true) (fun j => L0_of j 3 true)) with (q := qw); try assumption; try lia.
    - match goal with |- context [mapM ?F ?l] => apply (mapM_all F l) end. intros; eexists; reflexivity.
    - intros j Hj. apply SZ'. lia.
    - intros j Hj. apply Szj. lia.
    - reflexivity.
    - left. split; [reflexivity|exact Qw].
    - intros j Hj. apply lrd_map. lia. }
  assert (G2 : exists w, pre_flm_to_analysis_fp pow3 jst 7 flm 1000 1 6 None (fint 3) MW None false (Some psi) (Some qa) = Ok w).
  { unfold qa. rewrite (pfl64 pow3 1000 1 6 7 (fint 3) (fun j => Lj_of 1000 j 3 true) (fun j => Nj_of 1000 j 1 3 true) (fun j => L0_of j 3 true)); try assumption; try lia.
    - match goal with |- context [mapM ?F ?l] => apply (mapM_all F l) end. intros; eexists; reflexivity.
    - reflexivity. }
  assert (G3 : exists w, torch_flm_to_analysis_fp pow3 (back_of jst) 7 flm 1000 1 6 None (fint 3) MW None false (Some psi) (Some qa) = Ok w).
  { unfold qa. rewrite (tfl64 pow3 1000 1 6 7 (fint 3) (fun j => Lj_of 1000 j 3 true) (fun j => Nj_of 1000 j 1 3 true) (fun j => L0_of j 3 true)); try assumption; try lia.
    - match goal with |- context [mapM ?F ?l] => destruct (mapM_all F l) as [ys ->] end; [intros; eexists; reflexivity|]. eexists. reflexivity.
    - reflexivity. }
  assert (G4 : exists w, ssht_flm_to_analysis_fp pow3 (back_of jst) 7 flm 1000 1 6 (Some 6) (fint 3) MW false (Some psi) = Ok w).
  { rewrite (cfl64 pow3 1000 1 6 6 (fint 3) (fun j => Lj_of 1000 j 3 true) (fun j => Nj_of 1000 j 1 3 true) (fun j => L0_of j 3 true)) with (nside := None); try assumption; try lia.
    - match goal with |- context [mapM ?F ?l] => apply (mapM_all F l) end. intros; eexists; reflexivity.
    - intros j Hj. apply SZ'. lia.
    - intros j Hj. apply Szj. lia.
    - reflexivity. }
  clearbody qa qw. destruct G1 as (w & G1). destruct G2 as (w' & G2). destruct G3 as (w'' & G3). destruct G4 as (w3 & G4).
  do 3 eexists. exists jst, (back_of jst), flm, psi, phi, qw, qa, w, w', w'', w3.
  split; [exact H1|]. split; [exact H2|]. split; [exact H3|]. split; [exact EJ|]. split; [exact EF|]. split; [exact Qw|]. split; [exact Qa|].
  split; [exact R1|]. split; [exact R2|]. split; [exact R3|]. split; [exact G1|]. split; [exact G2|]. split; [exact G3|]. split; [exact G4|].
  destruct nd1000 as [N1 N2]. pose proof (LN_j_ok 1000 6 1 3 true ltac:(lra)) as EL. rewrite N1, N2 in EL.
  destruct (fp3_jax_flm big_exp pow3 (fun x => x) (fun x => x) big_exp jst 7 flm 1000 1 6 (Some 6) 6 0 MW None false psi phi qw None w ltac:(lia) ltac:(lia) EJ ltac:(lia) ltac:(lia) H1 H2 H3 (or_introl EF)
    ltac:(lia) (or_introl eq_refl) Qw (or_introl eq_refl) R1 R2 G1) as (flmn & Lj & Nj & L0j & y & E1 & E2 & E3 & E4).
  destruct (fp3_precompute_flm big_exp pow3 (fun x => x) (fun x => x) big_exp jst 7 flm 1000 1 6 None 0 MW None false psi phi qa false w' ltac:(lia) ltac:(lia) EJ ltac:(lia) ltac:(lia) H1 H2 H3 (or_introl EF)
    (or_intror eq_refl) Qa R1 R2 G2) as (flmn' & Lj' & Nj' & L0j' & y' & E1' & E2' & E3' & E4').
  rewrite EL in E1, E1'. apply Ok_inj in E1, E1'.
  assert (Lj = 1000 /\ Nj = 1 /\ Lj' = 1000 /\ Nj' = 1) as (-> & -> & -> & ->) by (repeat split; congruence).
  change (winv64 store flmn 1000 1 L0j MW false None = Ok y) in E3. change (winv64 store flmn' 1000 1 L0j' MW false None = Ok y') in E3'.
  exists y, y'. split; [exact E2|]. split; [exact E2'|]. rewrite (sto_winv _ _ _ _ _ E3), (sto_winv _ _ _ _ _ E3').
  split; [exact (E4 0 0 ltac:(lia) eq_refl ltac:(lia))|exact (E4' 0 0 ltac:(lia) eq_refl ltac:(lia))].
Qed.
