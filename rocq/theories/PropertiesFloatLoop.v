(** * Looped and vectorised filters in binary64 *)

From Coq Require Import ZArith Reals List Bool.
From Coquelicot Require Import Complex.
From Flocq Require Import Core IEEE754.BinarySingleNaN.
Import ListNotations.
From Verif Require Import Py ModelSamples ModelFilters ModelFloat ModelFloatDir ModelFloatTrans ModelFloatJax Spec SpecTransforms SpecQuad SpecFp SpecFpDir SpecFpTrans SpecFpJax.
From Verif Require Import FloatLoopProps.
Import ListNotations.
Open Scope Z_scope.

(** ** C79: the looped and the vectorised filters agree in binary64 *)
(** axisymmetric filters, bit for bit, for every library and dilation, wherever the computed table of k_lam does not decrease with the scale; *)
(** where it does the vectorised filter is zero and the looped one repeats the preceding multipole *)
Theorem C79_axisymmetric_filters : forall fexp fpow J L J_min lam k psi phi psi' phi',
  k_lam_fp fexp fpow J L lam 300 = Ok k ->
  filters_axisym_fp fexp fpow J L J_min lam = Ok (psi, phi) ->
  filters_axisym_vectorised_fp fexp fpow J L J_min lam = Ok (psi', phi') ->
  rows psi = rows psi' /\ cols psi = cols psi' /\ len1 phi = len1 phi' /\
  forall l, 0 <= l < L ->
    get1 phi l = get1 phi' l /\
    (forall j, J_min <= j <= J -> let d := fsub (get2 k (j + 1) l) (get2 k j l) in
       (flt d (fint 0) = false -> get2 psi j l = get2 psi' j l) /\
       (flt d (fint 0) = true -> get2 psi' j l = fint 0 /\ (1 <= l -> get2 psi j l = get2 psi j (l - 1)))) /\
    (forall j, 0 <= j < J_min -> get2 psi j l = fint 0).
Proof. exact lv_axi. Qed.
Print Assumptions C79_axisymmetric_filters.

(** for lam = 2 they are equal at the multipoles from 2^j on; below, where they are not equal, the vectorised filter is zero and the square of the looped one is within the quadrature error *)
Theorem C79_default_dilation : forall fexp fpow J L J_min psi phi psi' phi', 1 <= L <= 2 ^ 53 ->
  accurate_exp fexp -> exact_powers fpow J -> j_max L 2 = Ok J ->
  filters_axisym_fp fexp fpow J L J_min (fint 2) = Ok (psi, phi) ->
  filters_axisym_vectorised_fp fexp fpow J L J_min (fint 2) = Ok (psi', phi') ->
  forall j l, J_min <= j <= J -> 0 <= l < L ->
    get2 psi j l = get2 psi' j l \/
    (l < 2 ^ j /\ get2 psi' j l = fint 0 /\ is_finite (get2 psi j l) = true /\ (B2R (get2 psi j l) ^ 2 <= 2 * quad_error 2 300 + bpow radix2 (-33))%R).
Proof. exact lv_axi2. Qed.
Print Assumptions C79_default_dilation.

(** directional filters: the scaling functions are the same up to the sign of zero, for every library, dilation and spin *)
Theorem C79_scaling_functions : forall fexp fpow flg J L N J_min lam spin psi phi psi' phi', 1 <= L <= 2 ^ 52 ->
  filters_directional_fp fexp fpow flg J L N J_min lam spin 0 = Ok (psi, phi) ->
  filters_directional_vectorised_fp fexp fpow flg J L N J_min lam spin 0 = Ok (psi', phi') ->
  len1 phi = len1 phi' /\ forall l, 0 <= l < L -> same64 (get1 phi l) (get1 phi' l).
Proof. exact lv_phi. Qed.
Print Assumptions C79_scaling_functions.

(** the wavelets: the square roots of the two weights are rounded differently, so they agree to 2^-48 *)
Theorem C79_wavelets : forall fexp fpow flg J L N J_min lam spin k psi phi psi' phi', 1 <= L <= 2 ^ 52 -> 1 <= N <= 41 ->
  accurate_loggamma flg -> relative_exp fexp ->
  k_lam_fp fexp fpow J L lam 300 = Ok k ->
  filters_directional_fp fexp fpow flg J L N J_min lam spin 0 = Ok (psi, phi) ->
  filters_directional_vectorised_fp fexp fpow flg J L N J_min lam spin 0 = Ok (psi', phi') ->
  shape3 psi = shape3 psi' /\
  forall j l m, J_min <= j <= J -> 0 <= l < L -> Z.abs m < L ->
    let z := get3 psi j l (L - 1 + m) in let z' := get3 psi' j l (L - 1 + m) in
    let d := fsub (get2 k (j + 1) l) (get2 k j l) in
    (is_finite d = true -> flt d (fint 0) = false ->
       finite64 z /\ finite64 z' /\ (Cmod (cval z - cval z')%C <= bpow radix2 (-48) * Cmod (cval z'))%R) /\
    (flt d (fint 0) = true -> cval z' = RtoC 0).
Proof. exact lv_psi. Qed.
Print Assumptions C79_wavelets.

(** for lam = 2, at every multipole from 2^j on *)
Theorem C79_default_dilation_wavelets : forall fexp fpow flg J L N J_min spin psi phi psi' phi', 1 <= L <= 2 ^ 52 -> 1 <= N <= 41 ->
  accurate_loggamma flg -> relative_exp fexp -> accurate_exp fexp -> exact_powers fpow J -> j_max L 2 = Ok J ->
  filters_directional_fp fexp fpow flg J L N J_min (fint 2) spin 0 = Ok (psi, phi) ->
  filters_directional_vectorised_fp fexp fpow flg J L N J_min (fint 2) spin 0 = Ok (psi', phi') ->
  forall j l m, J_min <= j <= J -> 2 ^ j <= l < L -> Z.abs m < L ->
    let z := get3 psi j l (L - 1 + m) in let z' := get3 psi' j l (L - 1 + m) in
    finite64 z /\ finite64 z' /\ (Cmod (cval z - cval z')%C <= bpow radix2 (-48) * Cmod (cval z'))%R.
Proof. exact lv_psi2. Qed.
Print Assumptions C79_default_dilation_wavelets.

(** with lam = 2, L = 5, N = 3 both implementations return, and the wavelet of scale 1 is near 1 at multipole 2 *)
Example C79_example : exists fexp fpow flg kpsi kphi kpsi' kphi' psi phi psi' phi', accurate_loggamma flg /\ relative_exp fexp /\ accurate_exp fexp /\ exact_powers fpow 3 /\ j_max 5 2 = Ok 3 /\
  filters_axisym_fp fexp fpow 3 5 1 (fint 2) = Ok (kpsi, kphi) /\
  filters_axisym_vectorised_fp fexp fpow 3 5 1 (fint 2) = Ok (kpsi', kphi') /\
  filters_directional_fp fexp fpow flg 3 5 3 1 (fint 2) 0 0 = Ok (psi, phi) /\
  filters_directional_vectorised_fp fexp fpow flg 3 5 3 1 (fint 2) 0 0 = Ok (psi', phi') /\
  get2 kpsi 1 2 = get2 kpsi' 1 2 /\ (98 / 100 <= B2R (get2 kpsi 1 2) ^ 2)%R.
Proof. exact ex_c79. Qed.
