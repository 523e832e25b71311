(** * Spin-lowered filters in binary64 *)

From Coq Require Import ZArith Reals List Bool.
From Coquelicot Require Import Complex.
From Flocq Require Import Core IEEE754.BinarySingleNaN.
Import ListNotations.
From Verif Require Import Py ModelSamples ModelFilters ModelFloat ModelFloatDir Spec SpecFp SpecFpDir.
From Verif Require Import FloatSpinProps.
Import ListNotations.
Open Scope Z_scope.

(** ** C67: spin-lowered filters *)
(** the normalisation, as long as its square does not leave the range of binary64 *)
Theorem C67_normalisation_accurate : forall l s, Z.abs s <= l -> l + Z.abs s <= 2 ^ 53 -> Z.abs s <= 2 ^ 18 ->
  (bpow radix2 (-800) <= spin_ratio l s <= bpow radix2 800)%R ->
  exists w, spin_normalization_fp l s = Ok w /\ is_finite w = true /\
    (Rabs (B2R w - sqrt (spin_ratio l s)) <= (IZR (Z.abs s) + 2) * bpow radix2 (-51) * sqrt (spin_ratio l s))%R.
Proof. exact fp_spin_norm. Qed.
Print Assumptions C67_normalisation_accurate.

(** spins up to 7 stay in range at every multipole *)
Theorem C67_small_spins_in_range : forall l s, Z.abs s <= 7 -> Z.abs s <= l <= 2 ^ 52 ->
  (bpow radix2 (-800) <= spin_ratio l s <= bpow radix2 800)%R.
Proof. exact fp_spin_range. Qed.
Print Assumptions C67_small_spins_in_range.

(** beyond the range it degenerates: at multipole 100 the normalisation for spin -100 is computed as zero, and for spin 100 as infinity *)
Theorem C67_large_spin_degenerates : (exists w, spin_normalization_fp 100 (-100) = Ok w /\ feq w (fint 0) = true) /\
  spin_normalization_fp 100 100 = Ok finf /\ (0 < sqrt (spin_ratio 100 (-100)))%R.
Proof. exact fp_spin_big. Qed.
Print Assumptions C67_large_spin_degenerates.

(** each coefficient against the exact product, including the sign and the normalisation of the spin *)
Theorem C67_coefficients_accurate : forall fexp fpow flg J L N J_min lam spin spin0 kpsi kphi psi phi s,
  accurate_loggamma flg -> relative_exp fexp -> 1 <= L <= 2 ^ 52 -> 1 <= N <= 41 -> spin0 <> 0 -> Z.abs spin0 <= 2 ^ 18 ->
  filters_axisym_fp fexp fpow J L J_min lam = Ok (kpsi, kphi) -> filters_directional_fp fexp fpow flg J L N J_min lam spin spin0 = Ok (psi, phi) ->
  tiling_direction L N = Ok s ->
  forall l, Z.abs spin <= l -> Z.abs spin0 <= l < L -> (bpow radix2 (-800) <= spin_ratio l spin0 <= bpow radix2 800)%R ->
    let r := (sign_of spin0 * sqrt (spin_ratio l spin0))%R in
    (is_finite (get1 kphi l) = true -> let w := (r * (sqrt ((2 * IZR l + 1) / (4 * PI)) * B2R (get1 kphi l)))%R in
       is_finite (get1 phi l) = true /\ (Rabs (B2R (get1 phi l) - w) <= (IZR (Z.abs spin0) + 6) * bpow radix2 (-51) * Rabs w)%R) /\
    (forall j m, J_min <= j <= J -> Z.abs m < L -> is_finite (get2 kpsi j l) = true ->
       let w := (r * (sqrt ((2 * IZR l + 1) / (8 * PI ^ 2)) * B2R (get2 kpsi j l)))%R in
       let z := get3 psi j l (L - 1 + m) in let t := Cmult (RtoC w) (get2 s l (L - 1 + m)) in
       is_finite (fst z) = true /\ is_finite (snd z) = true /\ (Cmod (Cminus (cval z) t) <= (IZR (Z.abs spin0) + 9) * bpow radix2 (-51) * Cmod t)%R).
Proof. exact fp_spin_acc. Qed.
Print Assumptions C67_coefficients_accurate.

(** the normalised squares sum to (l+s)!/(l-s)! times those of the axisymmetric filters *)
Theorem C67_total : forall fexp fpow flg J L N J_min lam spin spin0 kpsi kphi psi phi,
  accurate_loggamma flg -> relative_exp fexp -> 1 <= L <= 2 ^ 52 -> 1 <= N <= 41 -> spin0 <> 0 -> Z.abs spin0 <= 2 ^ 18 ->
  filters_axisym_fp fexp fpow J L J_min lam = Ok (kpsi, kphi) -> filters_directional_fp fexp fpow flg J L N J_min lam spin spin0 = Ok (psi, phi) ->
  forall l, Z.abs spin <= l -> Z.abs spin0 <= l < L -> (bpow radix2 (-800) <= spin_ratio l spin0 <= bpow radix2 800)%R ->
    is_finite (get1 kphi l) = true -> (forall j, J_min <= j <= J -> is_finite (get2 kpsi j l) = true) ->
    let t := (spin_ratio l spin0 * fp_total kpsi kphi J_min J l)%R in
    (Rabs (fp_dir_total L psi phi J_min J l - t) <= (IZR (Z.abs spin0) + 9) * bpow radix2 (-50) * t)%R.
Proof. exact fp_spin_total. Qed.
Print Assumptions C67_total.

(** with lam = 2 every coefficient of the spin-lowered filters is a number *)
Theorem C67_default_dilation_finite : forall fexp fpow flg J L N J_min spin spin0 psi phi, 1 <= L <= 2 ^ 52 -> 1 <= N <= 41 -> Z.abs spin0 <= 7 -> spin0 <> 0 ->
  accurate_loggamma flg -> relative_exp fexp -> accurate_exp fexp -> exact_powers fpow J -> j_max L 2 = Ok J ->
  filters_directional_fp fexp fpow flg J L N J_min (fint 2) spin spin0 = Ok (psi, phi) ->
  forall l, Z.abs spin <= l -> Z.abs spin0 <= l < L ->
    is_finite (get1 phi l) = true /\
    forall j m, J_min <= j <= J -> Z.abs m < L -> is_finite (fst (get3 psi j l (L - 1 + m))) = true /\ is_finite (snd (get3 psi j l (L - 1 + m))) = true.
Proof. exact fp2_spin_finite. Qed.
Print Assumptions C67_default_dilation_finite.

(** lam = 2, L = 5, N = 3, spin 0 with reference spin 2: the normalisation at multipole 3 is sqrt(120) within 2^-49, relatively *)
Example C67_example : exists fexp fpow flg psi phi w, accurate_loggamma flg /\ relative_exp fexp /\ accurate_exp fexp /\ exact_powers fpow 3 /\ j_max 5 2 = Ok 3 /\
  filters_directional_fp fexp fpow flg 3 5 3 0 (fint 2) 0 2 = Ok (psi, phi) /\ is_finite (get1 phi 3) = true /\
  spin_normalization_fp 3 2 = Ok w /\ (Rabs (B2R w - sqrt 120) <= bpow radix2 (-49) * sqrt 120)%R.
Proof. exact ex_fp_spin. Qed.
