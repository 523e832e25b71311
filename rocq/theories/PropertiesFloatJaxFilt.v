(** * The JAX filters in binary64 *)

From Coq Require Import ZArith Reals List Bool.
From Coquelicot Require Import Complex.
From Flocq Require Import Core IEEE754.BinarySingleNaN.
Import ListNotations.
From Verif Require Import Py ModelSamples ModelFilters ModelTransforms ModelFloat ModelFloatDir ModelFloatTrans ModelFloatJax ModelFloatJaxFilt Spec SpecTransforms SpecQuad SpecFp SpecFpDir SpecFpTrans SpecFpJax.
From Verif Require Import FloatJaxFiltProps.
Import ListNotations.
Open Scope Z_scope.

(** ** C78: the JAX filters in binary64 are those of numpy, bit for bit *)
Theorem C78_axisymmetric_filters : forall fexp fpow J L J_min lam,
  filters_axisym_jax_fp fexp fpow J L J_min lam = filters_axisym_vectorised_fp fexp fpow J L J_min lam.
Proof. exact axi_jax. Qed.
Print Assumptions C78_axisymmetric_filters.

(** for two different implementations of log-gamma and exp *)
Theorem C78_directional_component : forall flg fexp jlg jexp L N, accurate_loggamma flg -> relative_exp fexp -> accurate_loggamma jlg -> relative_exp jexp ->
  1 <= L -> 1 <= N <= 41 -> tiling_direction_jax_fp jlg jexp L N = tiling_direction_fp flg fexp L N.
Proof. exact dir_jax. Qed.
Print Assumptions C78_directional_component.

(** so numpy's directional component does not depend on the library either *)
Theorem C78_library_independent : forall flg fexp flg' fexp' L N, accurate_loggamma flg -> relative_exp fexp -> accurate_loggamma flg' -> relative_exp fexp' ->
  1 <= L -> 1 <= N <= 41 -> tiling_direction_fp flg' fexp' L N = tiling_direction_fp flg fexp L N.
Proof. exact dir_libs. Qed.
Print Assumptions C78_library_independent.

Theorem C78_directional_filters : forall fexp fpow flg jlg jexp J L N J_min lam spin,
  accurate_loggamma flg -> relative_exp fexp -> accurate_loggamma jlg -> relative_exp jexp -> 1 <= L -> 1 <= N <= 41 ->
  filters_directional_jax_fp fexp fpow jlg jexp J L N J_min lam spin 0 = filters_directional_vectorised_fp fexp fpow flg J L N J_min lam spin 0.
Proof. exact dirf_jax. Qed.
Print Assumptions C78_directional_filters.

(** with 64 or more directions JAX cannot convert 2**gamma to int64, whatever the libraries compute *)
Theorem C83_binary64 : forall fexp fpow jlg jexp J L N J_min lam spin psi phi, 1 <= L -> ~ int64_powers L N ->
  filters_axisym_jax_fp fexp fpow J L J_min lam = Ok (psi, phi) ->
  tiling_direction_jax_fp jlg jexp L N = Err OverflowError /\
  filters_directional_jax_fp fexp fpow jlg jexp J L N J_min lam spin 0 = Err OverflowError.
Proof. exact dirf_jax_overflow. Qed.
Print Assumptions C83_binary64.

(** a non-zero spin0 raises, whatever the other arguments *)
Theorem C78_spin_lowered_raises : forall fexp fpow jlg jexp J L N J_min lam spin spin0, spin0 <> 0 ->
  filters_directional_jax_fp fexp fpow jlg jexp J L N J_min lam spin spin0 = Err TypeError.
Proof. exact dirf_jax_spin0. Qed.
Print Assumptions C78_spin_lowered_raises.

(** with lam = 2 the JAX filters are admissible up to the quadrature and rounding errors *)
Theorem C78_admissible : forall fexp fpow jlg jexp J L N J_min spin psi phi, 1 <= L <= 2 ^ 52 -> 1 <= N <= 41 ->
  accurate_loggamma jlg -> relative_exp jexp -> relative_exp fexp -> accurate_exp fexp -> exact_powers fpow J -> j_max L 2 = Ok J ->
  filters_directional_jax_fp fexp fpow jlg jexp J L N J_min (fint 2) spin 0 = Ok (psi, phi) ->
  forall l, Z.abs spin <= l < L ->
    (1 - bpow radix2 (-47) <= fp_dir_total L psi phi J_min J l <= 1 + quad_error 2 300 + bpow radix2 (-33))%R.
Proof. exact jax_adm. Qed.
Print Assumptions C78_admissible.

(** analysis and synthesis by the JAX transform with the JAX filters *)
Theorem C78_round_trip : forall fexp fpow jlg jexp fsum O J flm f L N J_min spin s nside reality d B psi phi pa ps qa qs,
  1 <= L <= 2 ^ 52 -> 1 <= N <= L -> N <= 41 -> accurate_loggamma jlg -> relative_exp jexp -> relative_exp fexp -> accurate_exp fexp -> exact_powers fpow J -> j_max L 2 = Ok J ->
  0 <= J_min < J -> summation fsum -> (0 <= d <= 1)%R -> (bpow radix2 (-900) <= B <= bpow radix2 780)%R -> accurate64 false d (jax_lib O) L spin s nside reality ->
  filters_directional_jax_fp fexp fpow jlg jexp J L N J_min (fint 2) spin 0 = Ok (psi, phi) ->
  generate_wigner_precomputes_fp fpow J L N J_min (fint 2) s nside false reality = Ok qa -> (pa = None \/ pa = Some qa) ->
  generate_wigner_precomputes_fp fpow J L N J_min (fint 2) s nside true reality = Ok qs -> (ps = None \/ ps = Some qs) ->
  is_harmonic L spin reality (vals2 flm) -> numbers2 B flm -> inv64 (jax_lib O) flm L spin s nside reality = Ok f ->
  exists w sc g,
    jax_analysis_fp fpow O J f L N J_min (fint 2) spin s nside reality (Some (psi, phi)) pa = Ok (w, sc) /\
    jax_synthesis_fp fpow fsum O J w sc L N J_min (fint 2) spin s nside reality (Some (psi, phi)) ps = inv64 (jax_lib O) g L spin s nside reality /\
    harmonic L spin (vals2 g) /\
    forall l q, 0 <= l < L -> 0 <= q < 2 * L - 1 ->
      finite64 (get2 g l q) /\
      (Cmod (cval (get2 g l q) - cval (get2 flm l q))%C
       <= (quad_error 2 300 + bpow radix2 (-32)) * Cmod (cval (get2 flm l q))
          + d * B * (3 * sqrt (IZR (N * (J + 1) * (2 * l + 1))) + 21) + bpow radix2 (-1000))%R.
Proof. exact rt_jax_jax. Qed.
Print Assumptions C78_round_trip.

(** two libraries that differ: the JAX filters for lam = 2, L = 5, N = 3 are returned and are those of numpy *)
Example C78_example : exists fexp fpow flg jlg psi phi, accurate_loggamma flg /\ accurate_loggamma jlg /\ flg (fint 1) <> jlg (fint 1) /\
  relative_exp fexp /\ accurate_exp fexp /\ exact_powers fpow 3 /\ j_max 5 2 = Ok 3 /\
  filters_directional_jax_fp fexp fpow jlg fexp 3 5 3 1 (fint 2) 0 0 = Ok (psi, phi) /\
  filters_directional_vectorised_fp fexp fpow flg 3 5 3 1 (fint 2) 0 0 = Ok (psi, phi) /\
  (99 / 100 <= fp_dir_total 5 psi phi 1 3 2 <= 101 / 100)%R.
Proof. exact ex_c78. Qed.
