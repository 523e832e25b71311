(** * Properties of filters.py (C08 - C21, C38 - C40, C47 - C49) *)

From Coq Require Import ZArith Reals List Bool.
From Coquelicot Require Import Complex.
From Verif Require Import Py ModelSamples ModelFilters Spec.
From Verif Require Import FiltersProps.
Import ListNotations.
Open Scope Z_scope.

(** ** C08: filter constructors reject exactly the invalid scale ranges *)
Theorem C08_invalid_scale_range_rejected : forall L N lam J J_min spin spin0, 1 <= L -> 1 <= N -> (1 < lam)%R ->
  j_max L lam = Ok J -> J_min < 0 \/ J <= J_min ->
  filters_axisym L J_min lam = Err ValueError /\
  filters_axisym_vectorised L J_min lam = Err ValueError /\
  filters_axisym_jax L J_min lam = Err ValueError /\
  filters_directional L N J_min lam spin spin0 = Err ValueError /\
  filters_directional_vectorised L N J_min lam spin 0 = Err ValueError /\
  filters_directional_jax L N J_min lam spin 0 = Err ValueError.
Proof. exact invalid_range. Qed.
Print Assumptions C08_invalid_scale_range_rejected.

Theorem C08_valid_scale_range_accepted : forall L N lam J J_min spin spin0, 1 <= L -> 1 <= N -> (1 < lam)%R ->
  j_max L lam = Ok J -> 0 <= J_min < J ->
  (exists psi phi, filters_axisym L J_min lam = Ok (psi, phi) /\
     shape2 psi = [J + 1; L] /\ shape1 phi = [L]) /\
  (exists psi phi, filters_axisym_vectorised L J_min lam = Ok (psi, phi) /\
     shape2 psi = [J + 1; L] /\ shape1 phi = [L]) /\
  (exists psi phi, filters_axisym_jax L J_min lam = Ok (psi, phi) /\
     shape2 psi = [J + 1; L] /\ shape1 phi = [L]) /\
  (exists psi phi, filters_directional L N J_min lam spin spin0 = Ok (psi, phi) /\
     shape3 psi = [J + 1; L; 2 * L - 1] /\ shape1 phi = [L]) /\
  (exists psi phi, filters_directional_vectorised L N J_min lam spin 0 = Ok (psi, phi) /\
     shape3 psi = [J + 1; L; 2 * L - 1] /\ shape1 phi = [L]) /\
  (int64_powers L N -> exists psi phi, filters_directional_jax L N J_min lam spin 0 = Ok (psi, phi) /\
     shape3 psi = [J + 1; L; 2 * L - 1] /\ shape1 phi = [L]).
Proof. exact valid_range. Qed.
Print Assumptions C08_valid_scale_range_accepted.

(** L = 5, lam = 2 has J = 3: J_min = 1 is accepted, 3 and -1 are not *)
Example C08_example : j_max 5 2 = Ok 3 /\ (exists p, filters_axisym 5 1 2 = Ok p) /\
  filters_axisym 5 3 2 = Err ValueError /\ filters_directional 5 2 (-1) 2 0 1 = Err ValueError.
Proof. exact ex_range. Qed.

(** ** C09: quadrature weights are positive and well defined *)
Theorem C09_quadrature_positive : forall lam n a, (1 < lam)%R -> 3 <= n -> (1 / lam <= a <= 1)%R ->
  exists v, part_scaling_fn a 1 n lam = Ok v /\ (0 <= v)%R /\
    ((a < 1)%R -> (0 < v)%R) /\ (a = 1%R -> v = 0%R).
Proof. exact quadrature_positive. Qed.
Print Assumptions C09_quadrature_positive.

Theorem C09_generating_function_values : forall L lam n, 1 <= L -> (1 < lam)%R -> 3 <= n ->
  exists J k, j_max L lam = Ok J /\ k_lam L lam n = Ok k /\ shape2 k = [J + 2; L] /\
    forall j l, 0 <= j < J + 2 -> 0 <= l < L ->
      ((IZR l <= powerRZ lam (j - 1))%R -> get2 k j l = 1%R) /\
      ((powerRZ lam j <= IZR l)%R -> get2 k j l = 0%R) /\
      ((IZR l < powerRZ lam j)%R -> (0 < get2 k j l)%R).
Proof. exact generating_values. Qed.
Print Assumptions C09_generating_function_values.

Example C09_example : (exists v, part_scaling_fn (1 / 2) 1 300 2 = Ok v /\ (0 < v)%R) /\
  part_scaling_fn 1 1 300 2 = Ok 0%R.
Proof. exact ex_quad. Qed.

(** ** C48: the generating function is the documented quadrature *)
Theorem C48_generating_function_is_the_quadrature_ratio : forall L lam n k j l, 1 <= L -> (1 < lam)%R -> 3 <= n ->
  k_lam L lam n = Ok k -> 0 <= j < rows k -> 0 <= l < L ->
  (powerRZ lam (j - 1) < IZR l < powerRZ lam j)%R ->
  get2 k j l = (trapezium lam (IZR l / powerRZ lam j) 0 n / trapezium lam (1 / lam) 1 n)%R.
Proof. exact k_is_ratio. Qed.
Print Assumptions C48_generating_function_is_the_quadrature_ratio.

(** l = 3 is the fractional multipole of scale 2 for lam = 2 *)
Example C48_example : exists k, k_lam 5 2 300 = Ok k /\
  get2 k 2 3 = (trapezium 2 (3 / 4) 0 300 / trapezium 2 (1 / 2) 1 300)%R.
Proof. exact ex_ratio. Qed.

(** ** C49: axisymmetric filters are square roots of generating function differences *)
Theorem C49_vectorised_filters_from_generating_function : forall L lam J_min J psi phi k, 1 <= L -> (1 < lam)%R ->
  filters_axisym_vectorised L J_min lam = Ok (psi, phi) -> k_lam L lam 300 = Ok k ->
  j_max L lam = Ok J ->
  forall l, 0 <= l < L ->
    get1 phi l = sqrt (get2 k J_min l) /\
    forall j, 0 <= j <= J -> get2 psi j l = sqrt (Rmax 0 (get2 k (j + 1) l - get2 k j l)).
Proof. exact vec_from_k. Qed.
Print Assumptions C49_vectorised_filters_from_generating_function.

(** the looped version writes the previous multipole's value where the difference is negative *)
Theorem C49_looped_filters_from_generating_function : forall L lam J_min J psi phi k, 1 <= L -> (1 < lam)%R ->
  filters_axisym L J_min lam = Ok (psi, phi) -> k_lam L lam 300 = Ok k ->
  j_max L lam = Ok J ->
  forall l, 0 <= l < L ->
    get1 phi l = sqrt (get2 k J_min l) /\
    (forall j, 0 <= j < J_min -> get2 psi j l = 0%R) /\
    forall j, J_min <= j <= J ->
      ((get2 k j l <= get2 k (j + 1) l)%R -> get2 psi j l = sqrt (get2 k (j + 1) l - get2 k j l)) /\
      ((get2 k (j + 1) l < get2 k j l)%R -> 1 <= l /\ get2 psi j l = get2 psi j (l - 1)).
Proof. exact loop_from_k. Qed.
Print Assumptions C49_looped_filters_from_generating_function.

(** lam = 2: the multipole 2 is carried by the scale 1 alone *)
Example C49_example : exists psi phi vpsi vphi k, filters_axisym 5 1 2 = Ok (psi, phi) /\
  filters_axisym_vectorised 5 1 2 = Ok (vpsi, vphi) /\ k_lam 5 2 300 = Ok k /\ j_max 5 2 = Ok 3 /\
  get2 k 1 2 = 0%R /\ get2 k 2 2 = 1%R /\ get2 psi 1 2 = 1%R /\ get2 vpsi 1 2 = 1%R /\ get1 phi 1 = 1%R.
Proof. exact ex_from_k. Qed.

(** ** C10: axisymmetric admissibility *)
Theorem C10_admissibility : forall L lam J_min J psi phi k, 1 <= L -> (1 < lam)%R ->
  filters_axisym_vectorised L J_min lam = Ok (psi, phi) -> k_lam L lam 300 = Ok k ->
  j_max L lam = Ok J ->
  forall l, 0 <= l < L ->
    ((forall j, J_min <= j <= J -> (get2 k j l <= 1)%R) /\ axi_total psi phi J_min J l = 1%R) \/
    (exists j, J_min <= j <= J /\ (powerRZ lam (j - 1) < IZR l < powerRZ lam j)%R /\
       (1 < get2 k j l)%R /\ axi_total psi phi J_min J l = get2 k j l).
Proof. exact admissibility. Qed.
Print Assumptions C10_admissibility.

Theorem C10_admissibility_exact_in_upper_half : forall L lam J_min J psi phi, 1 <= L -> (1 < lam)%R ->
  filters_axisym_vectorised L J_min lam = Ok (psi, phi) -> j_max L lam = Ok J ->
  forall l, 0 <= l < L -> upper_half lam l -> axi_total psi phi J_min J l = 1%R.
Proof. exact admissibility_half. Qed.
Print Assumptions C10_admissibility_exact_in_upper_half.

(** the looped version: exact where no difference is negative; where one is, the total is the
   ratio plus the square of the repeated value *)
Theorem C10_admissibility_looped : forall L lam J_min J psi phi k, 1 <= L -> (1 < lam)%R ->
  filters_axisym L J_min lam = Ok (psi, phi) -> k_lam L lam 300 = Ok k ->
  j_max L lam = Ok J ->
  forall l, 0 <= l < L ->
    ((forall j, J_min <= j <= J -> (get2 k j l <= 1)%R) /\ axi_total psi phi J_min J l = 1%R) \/
    (exists j, J_min <= j <= J /\ (1 < get2 k j l)%R /\
       axi_total psi phi J_min J l = (get2 k j l + get2 psi j (l - 1) ^ 2)%R).
Proof. exact admissibility_looped. Qed.
Print Assumptions C10_admissibility_looped.

Theorem C10_admissibility_looped_exact_in_upper_half : forall L lam J_min J psi phi, 1 <= L -> (1 < lam)%R ->
  filters_axisym L J_min lam = Ok (psi, phi) -> j_max L lam = Ok J ->
  forall l, 0 <= l < L -> upper_half lam l -> axi_total psi phi J_min J l = 1%R.
Proof. exact admissibility_looped_half. Qed.
Print Assumptions C10_admissibility_looped_exact_in_upper_half.

(** for lam = 2, L = 5: all of 0, 1, 2, 4 are in the upper half of their octave, 3 exactly on its edge *)
Example C10_example : exists psi phi, filters_axisym_vectorised 5 0 2 = Ok (psi, phi) /\
  forall l, 0 <= l < 5 -> axi_total psi phi 0 3 l = 1%R.
Proof. exact ex_adm. Qed.

(** ** C11, C21: supports *)
Theorem C11_wavelet_support_looped : forall L N lam J_min J spin spin0 psi phi, 1 <= L -> 1 <= N -> (1 < lam)%R ->
  filters_directional L N J_min lam spin spin0 = Ok (psi, phi) -> j_max L lam = Ok J ->
  forall j l m Lj Nj L0j, 0 <= j <= J -> 0 <= l < L -> Z.abs m < L ->
  LN_j L j N lam true = Ok (Lj, Nj, L0j) ->
  get3 psi j l (L - 1 + m) <> RtoC 0 ->
  J_min <= j /\ (powerRZ lam (j - 1) < IZR l < powerRZ lam (j + 1))%R /\
  L0j <= l < Lj /\ Z.abs m < Nj.
Proof. exact supp_looped. Qed.
Print Assumptions C11_wavelet_support_looped.

Theorem C11_wavelet_support_vectorised : forall L N lam J_min J spin spin0 psi phi, 1 <= L -> 1 <= N -> (1 < lam)%R ->
  filters_directional_vectorised L N J_min lam spin spin0 = Ok (psi, phi) \/
  filters_directional_jax L N J_min lam spin spin0 = Ok (psi, phi) ->
  j_max L lam = Ok J ->
  forall j l m Lj Nj L0j, 0 <= j <= J -> 0 <= l < L -> Z.abs m < L ->
  LN_j L j N lam true = Ok (Lj, Nj, L0j) ->
  get3 psi j l (L - 1 + m) <> RtoC 0 ->
  (powerRZ lam (j - 1) < IZR l < powerRZ lam (j + 1))%R /\
  L0j <= l < Lj /\ Z.abs m < Nj.
Proof. exact supp_vec. Qed.
Print Assumptions C11_wavelet_support_vectorised.

Theorem C11_scaling_support : forall L N lam J_min spin spin0 psi phi, 1 <= L -> 1 <= N -> (1 < lam)%R ->
  filters_directional L N J_min lam spin spin0 = Ok (psi, phi) \/
  filters_directional_vectorised L N J_min lam spin spin0 = Ok (psi, phi) \/
  filters_directional_jax L N J_min lam spin spin0 = Ok (psi, phi) ->
  forall l Ls, 0 <= l < L -> scal_bandlimit L J_min lam true = Ok Ls ->
  get1 phi l <> 0%R -> (IZR l < powerRZ lam J_min)%R /\ l < Ls.
Proof. exact supp_scal. Qed.
Print Assumptions C11_scaling_support.

(** scale 1 of lam = 2 keeps [1, 4), and l = 2, m = 0 really is in the support *)
Example C11_example : exists psi phi, filters_directional 5 3 1 2 0 0 = Ok (psi, phi) /\ j_max 5 2 = Ok 3 /\
  get3 psi 1 2 (5 - 1 + 0) <> RtoC 0 /\ LN_j 5 1 3 2 true = Ok (4, 3, 1) /\ scal_bandlimit 5 1 2 true = Ok 2.
Proof. exact ex_supp. Qed.

Theorem C21_filters_vanish_below_spin : forall L N lam J_min J spin spin0 psi phi, 1 <= L -> 1 <= N -> (1 < lam)%R ->
  filters_directional L N J_min lam spin spin0 = Ok (psi, phi) \/
  filters_directional_vectorised L N J_min lam spin spin0 = Ok (psi, phi) \/
  filters_directional_jax L N J_min lam spin spin0 = Ok (psi, phi) ->
  j_max L lam = Ok J ->
  forall l, 0 <= l < L ->
  (l < Z.abs spin \/ l < Z.abs spin0 -> get1 phi l = 0%R) /\
  forall j m, 0 <= j <= J -> Z.abs m < L ->
    l < Z.abs spin \/ l < Z.abs spin0 \/ l < Z.abs m \/ N <= Z.abs m \/ Z.even (m - (N - 1)) = false ->
    get3 psi j l (L - 1 + m) = RtoC 0.
Proof. exact vanish_spin. Qed.
Print Assumptions C21_filters_vanish_below_spin.

(** spin 2 removes the multipole 1, which the spin 0 filters have, and keeps the multipole 2 *)
Example C21_example : exists psi phi psi0 phi0, filters_directional 5 3 1 2 2 0 = Ok (psi, phi) /\
  filters_directional 5 3 1 2 0 0 = Ok (psi0, phi0) /\ j_max 5 2 = Ok 3 /\
  get1 phi0 1 <> 0%R /\ get1 phi 1 = 0%R /\ get3 psi 1 2 (5 - 1 + 0) <> RtoC 0.
Proof. exact ex_spin_cut. Qed.

(** ** C12: directional component is normalised *)
Theorem C12_directional_component : forall L N, 1 <= L -> 1 <= N ->
  exists s, tiling_direction L N = Ok s /\ shape2 s = [L; 2 * L - 1] /\
    (forall l, 1 <= l < L -> sumZ (- l) (l + 1) (fun m => Cmod (get2 s l (L - 1 + m)) ^ 2)%R = 1%R) /\
    (forall l m, 0 <= l < L -> Z.abs m < L -> get2 s l (L - 1 + m) <> RtoC 0 ->
       1 <= l /\ Z.abs m <= l /\ Z.abs m <= N - 1 /\ Z.even (m - (N - 1)) = true).
Proof. exact dir_component. Qed.
Print Assumptions C12_directional_component.

(** closed form: s_lm = (1 or i) sqrt(C(g, (g-m)/2) / 2^g), g = min(N-1, l) adjusted to the parity of N-1 *)
Theorem C12_directional_component_closed_form : forall L N s, 1 <= L -> 1 <= N -> tiling_direction L N = Ok s ->
  forall l m, 1 <= l < L -> Z.abs m <= l -> Z.abs m <= N - 1 -> Z.even (m - (N - 1)) = true ->
  exists g k : nat, Z.of_nat g = (if Z.even (l - (N - 1)) then Z.min (N - 1) l else Z.min (N - 1) (l - 1)) /\
    2 * Z.of_nat k = Z.of_nat g - m /\ (k <= g)%nat /\
    get2 s l (L - 1 + m) = Cmult (if Z.odd N then RtoC 1 else Ci) (RtoC (sqrt (Binomial.C g k / 2 ^ g))).
Proof. exact dir_closed. Qed.
Print Assumptions C12_directional_component_closed_form.

Example C12_example : exists s, tiling_direction 4 3 = Ok s /\
  get2 s 2 (4 - 1 + 0) = RtoC (sqrt (2 / 4)) /\ get2 s 2 (4 - 1 + 1) = RtoC 0.
Proof. exact ex_dir. Qed.

(** ** C13: binomial coefficient by log-gamma rounding *)
Theorem C13_binomial_exact : forall n k : nat, (k <= n)%nat ->
  binomial_coefficient (INR n) (INR k) = Binomial.C n k /\
  binomial_coefficient_jax (INR n) (INR k) = Binomial.C n k.
Proof. exact binom_exact. Qed.
Print Assumptions C13_binomial_exact.

(** any log-gamma whose exponential is within 1/2 of the true value is good enough *)
Theorem C13_binomial_robust : forall (lg : R -> R) (n k : nat), (k <= n)%nat ->
  (Rabs (exp (lg (INR n + 1) - lg (INR k + 1) - lg (INR n - INR k + 1)) - Binomial.C n k) < 1 / 2)%R ->
  binomial_with lg (INR n) (INR k) = Binomial.C n k.
Proof. exact binom_robust. Qed.
Print Assumptions C13_binomial_robust.

Example C13_example : binomial_coefficient (INR 4) (INR 2) = 6%R.
Proof. exact ex_binom. Qed.

(** ** C14: directional admissibility *)
(** the directional total is the axisymmetric one times the spin ratio (l+spin0)!/(l-spin0)!,
   which is 1 for spin0 = 0 *)
Theorem C14_directional_total_looped : forall L N lam J_min J spin spin0 psi phi apsi aphi,
  1 <= L -> 1 <= N -> (1 < lam)%R ->
  filters_directional L N J_min lam spin spin0 = Ok (psi, phi) ->
  filters_axisym L J_min lam = Ok (apsi, aphi) -> j_max L lam = Ok J ->
  forall l, Z.max (Z.abs spin) (Z.abs spin0) <= l < L ->
  dir_total L psi phi J_min J l = (spin_ratio l spin0 * axi_total apsi aphi J_min J l)%R.
Proof. exact dir_adm_looped. Qed.
Print Assumptions C14_directional_total_looped.

Theorem C14_directional_admissibility_looped : forall L N lam J_min J spin psi phi k,
  1 <= L -> 1 <= N -> (1 < lam)%R ->
  filters_directional L N J_min lam spin 0 = Ok (psi, phi) ->
  k_lam L lam 300 = Ok k -> j_max L lam = Ok J ->
  forall l, Z.abs spin <= l < L -> (forall j, J_min <= j <= J -> (get2 k j l <= 1)%R) ->
  dir_total L psi phi J_min J l = 1%R.
Proof. exact dir_adm_looped_one. Qed.
Print Assumptions C14_directional_admissibility_looped.

Theorem C14_directional_admissibility_vectorised : forall L N lam J_min J spin spin0 psi phi k,
  1 <= L -> 1 <= N -> (1 < lam)%R ->
  filters_directional_vectorised L N J_min lam spin spin0 = Ok (psi, phi) ->
  k_lam L lam 300 = Ok k -> j_max L lam = Ok J ->
  forall l, Z.abs spin <= l < L ->
    ((forall j, J_min <= j <= J -> (get2 k j l <= 1)%R) /\ dir_total L psi phi J_min J l = 1%R) \/
    (exists j, J_min <= j <= J /\ (powerRZ lam (j - 1) < IZR l < powerRZ lam j)%R /\
       (1 < get2 k j l)%R /\ dir_total L psi phi J_min J l = get2 k j l).
Proof. exact dir_adm_vec. Qed.
Print Assumptions C14_directional_admissibility_vectorised.

Theorem C14_directional_admissibility_upper_half : forall L N lam J_min J spin psi phi,
  1 <= L -> 1 <= N -> (1 < lam)%R ->
  filters_directional L N J_min lam spin 0 = Ok (psi, phi) \/
  filters_directional_vectorised L N J_min lam spin 0 = Ok (psi, phi) \/
  filters_directional_jax L N J_min lam spin 0 = Ok (psi, phi) ->
  j_max L lam = Ok J ->
  forall l, Z.abs spin <= l < L -> upper_half lam l -> dir_total L psi phi J_min J l = 1%R.
Proof. exact dir_adm_half. Qed.
Print Assumptions C14_directional_admissibility_upper_half.

Example C14_example : exists psi phi, filters_directional 5 3 1 2 0 0 = Ok (psi, phi) /\
  forall l, 0 <= l < 5 -> dir_total 5 psi phi 1 3 l = 1%R.
Proof. exact ex_dir_adm. Qed.

(** ** C15: conjugate symmetry *)
Theorem C15_conjugate_symmetry : forall L N lam J_min J spin spin0 psi phi, 1 <= L -> 1 <= N -> (1 < lam)%R ->
  filters_directional L N J_min lam spin spin0 = Ok (psi, phi) \/
  filters_directional_vectorised L N J_min lam spin spin0 = Ok (psi, phi) \/
  filters_directional_jax L N J_min lam spin spin0 = Ok (psi, phi) ->
  j_max L lam = Ok J ->
  forall j l m, 0 <= j <= J -> 0 <= l < L -> Z.abs m < L ->
  get3 psi j l (L - 1 - m) = Cmult (RtoC (sign_of m)) (Cconj (get3 psi j l (L - 1 + m))).
Proof. exact conj_symmetry. Qed.
Print Assumptions C15_conjugate_symmetry.

(** for N odd the filters are real, for N even purely imaginary *)
Theorem C15_parity_real_or_imaginary : forall L N lam J_min J spin spin0 psi phi, 1 <= L -> 1 <= N -> (1 < lam)%R ->
  filters_directional L N J_min lam spin spin0 = Ok (psi, phi) \/
  filters_directional_vectorised L N J_min lam spin spin0 = Ok (psi, phi) \/
  filters_directional_jax L N J_min lam spin spin0 = Ok (psi, phi) ->
  j_max L lam = Ok J ->
  forall j l m, 0 <= j <= J -> 0 <= l < L -> Z.abs m < L ->
  (if Z.odd N then snd (get3 psi j l (L - 1 + m)) else fst (get3 psi j l (L - 1 + m))) = 0%R.
Proof. exact real_or_imag. Qed.
Print Assumptions C15_parity_real_or_imaginary.

(** hypotheses are met by every looped call in range, for instance L = 5, N = 2, spin0 = 1 *)
Example C15_example : exists psi phi, filters_directional 5 2 1 2 2 1 = Ok (psi, phi) /\ j_max 5 2 = Ok 3.
Proof. exact ex_conj. Qed.

(** ** C16, C17: looped against vectorised *)
Theorem C16_looped_vs_vectorised_axisym : forall L lam J_min J psi phi vpsi vphi k, 1 <= L -> (1 < lam)%R ->
  filters_axisym L J_min lam = Ok (psi, phi) ->
  filters_axisym_vectorised L J_min lam = Ok (vpsi, vphi) ->
  k_lam L lam 300 = Ok k -> j_max L lam = Ok J ->
  phi = vphi /\
  forall j l, 0 <= l < L -> J_min <= j <= J -> (get2 k j l <= get2 k (j + 1) l)%R ->
    get2 psi j l = get2 vpsi j l.
Proof. exact axi_loop_vec. Qed.
Print Assumptions C16_looped_vs_vectorised_axisym.

(** below J_min the looped rows are zero and the vectorised ones are not: at l = 1 row 0 is 1 *)
Theorem C16_rows_below_J_min_differ : forall L lam J_min J psi phi vpsi vphi, 2 <= L -> (1 < lam)%R -> 1 <= J_min ->
  filters_axisym L J_min lam = Ok (psi, phi) ->
  filters_axisym_vectorised L J_min lam = Ok (vpsi, vphi) -> j_max L lam = Ok J ->
  get2 psi 0 1 = 0%R /\ get2 vpsi 0 1 = 1%R.
Proof. exact rows_below. Qed.
Print Assumptions C16_rows_below_J_min_differ.

Example C16_example : exists a b c d, filters_axisym 5 1 2 = Ok (a, b) /\
  filters_axisym_vectorised 5 1 2 = Ok (c, d) /\ b = d /\ get2 a 0 1 = 0%R /\ get2 c 0 1 = 1%R.
Proof. exact ex_loop_vec. Qed.

Theorem C17_looped_vs_vectorised_directional : forall L N lam J_min J spin psi phi vpsi vphi k, 1 <= L -> 1 <= N -> (1 < lam)%R ->
  filters_directional L N J_min lam spin 0 = Ok (psi, phi) ->
  filters_directional_vectorised L N J_min lam spin 0 = Ok (vpsi, vphi) ->
  k_lam L lam 300 = Ok k -> j_max L lam = Ok J ->
  phi = vphi /\
  forall j l m, 0 <= l < L -> Z.abs m < L -> J_min <= j <= J ->
    (get2 k j l <= get2 k (j + 1) l)%R ->
    get3 psi j l (L - 1 + m) = get3 vpsi j l (L - 1 + m).
Proof. exact dir_loop_vec. Qed.
Print Assumptions C17_looped_vs_vectorised_directional.

Example C17_example : exists a b c d, filters_directional 5 2 1 2 1 0 = Ok (a, b) /\
  filters_directional_vectorised 5 2 1 2 1 0 = Ok (c, d) /\ b = d.
Proof. exact ex_dir_loop_vec. Qed.

(** ** C18: JAX filters equal the numpy vectorised filters *)
Theorem C18_jax_equals_numpy : forall L N lam J_min spin n, 1 <= L -> 1 <= N -> (1 < lam)%R ->
  k_lam_jax L lam n = k_lam L lam n /\
  filters_axisym_jax L J_min lam = filters_axisym_vectorised L J_min lam /\
  (int64_powers L N ->
   tiling_direction_jax L N = tiling_direction L N /\
   filters_directional_jax L N J_min lam spin 0 = filters_directional_vectorised L N J_min lam spin 0).
Proof. exact jax_eq. Qed.
Print Assumptions C18_jax_equals_numpy.

(** the directional component does not depend on the log-gamma implementation away from the
   positive integers, although the JAX version evaluates it there *)
Theorem C18_directional_component_any_loggamma : forall (lg : R -> R) L N, 1 <= L -> 1 <= N -> int64_powers L N ->
  (forall n : nat, lg (INR n + 1)%R = ln (INR (fact n))) ->
  tiling_direction_with lg L N = tiling_direction L N /\
  tiling_direction_jax_with lg L N = tiling_direction L N.
Proof. exact any_loggamma. Qed.
Print Assumptions C18_directional_component_any_loggamma.

Example C18_example : exists p, filters_directional_jax 5 2 1 2 1 0 = Ok p /\
  filters_directional_vectorised 5 2 1 2 1 0 = Ok p.
Proof. exact ex_jax. Qed.

(** ** C83: the JAX directional filters raise for 64 or more directions *)
Theorem C83_jax_directions_overflow : forall L N lam J J_min spin, 1 <= L -> (1 < lam)%R ->
  j_max L lam = Ok J -> 0 <= J_min < J -> 64 <= N -> 65 <= L \/ (L = 64 /\ Z.Even N) ->
  filters_directional_jax L N J_min lam spin 0 = Err OverflowError /\
  (exists p, filters_directional L N J_min lam spin 0 = Ok p) /\
  (exists p, filters_directional_vectorised L N J_min lam spin 0 = Ok p).
Proof. exact jax_overflow. Qed.
Print Assumptions C83_jax_directions_overflow.

Theorem C83_jax_directions_iff : forall L N lam J J_min spin, 1 <= L -> 1 <= N -> (1 < lam)%R ->
  j_max L lam = Ok J -> 0 <= J_min < J ->
  ((exists p, filters_directional_jax L N J_min lam spin 0 = Ok p) <-> int64_powers L N).
Proof. exact jax_accepts. Qed.
Print Assumptions C83_jax_directions_iff.

(** whatever the JAX version returns, the numpy version returns too *)
Theorem C83_jax_result_is_numpy_result : forall L N lam J_min spin spin0 p, 1 <= L -> 1 <= N -> (1 < lam)%R ->
  filters_directional_jax L N J_min lam spin spin0 = Ok p -> filters_directional_vectorised L N J_min lam spin spin0 = Ok p.
Proof. exact jax_result. Qed.
Print Assumptions C83_jax_result_is_numpy_result.

(** 64 directions at L = 128 (J = 7) overflow, 63 do not *)
Example C83_example : j_max 128 2 = Ok 7 /\ filters_directional_jax 128 64 0 2 0 0 = Err OverflowError /\
  (exists p, filters_directional_vectorised 128 64 0 2 0 0 = Ok p) /\
  (exists p, filters_directional_jax 128 63 0 2 0 0 = Ok p).
Proof. exact ex_c83. Qed.

(** ** C19: spin normalisation *)
Theorem C19_spin_normalisation : forall l s, Z.abs s <= l ->
  spin_normalization l s = Ok (sqrt (spin_ratio l s)) /\ (0 < sqrt (spin_ratio l s))%R.
Proof. exact spin_norm_value. Qed.
Print Assumptions C19_spin_normalisation.

Theorem C19_spin_normalisation_inverse : forall l s v w, Z.abs s <= l ->
  spin_normalization l s = Ok v -> spin_normalization l (- s) = Ok w -> (v * w = 1)%R.
Proof. exact spin_norm_inv. Qed.
Print Assumptions C19_spin_normalisation_inverse.

Example C19_example : spin_normalization 3 2 = Ok (sqrt 120) /\ spin_normalization 3 (-2) = Ok (sqrt (1 / 120)).
Proof. exact ex_spin. Qed.

(** ** C20: spin-lowered filters *)
Theorem C20_array_versions_fail_for_spin0 : forall L N lam J_min spin spin0, spin0 <> 0 ->
  filters_directional_vectorised L N J_min lam spin spin0 = Err ValueError /\
  filters_directional_jax L N J_min lam spin spin0 = Err TypeError.
Proof. exact spin0_fail. Qed.
Print Assumptions C20_array_versions_fail_for_spin0.

Theorem C20_looped_spin0_scales : forall L N lam J_min J spin spin0, 1 <= L -> 1 <= N -> (1 < lam)%R ->
  j_max L lam = Ok J -> 0 <= J_min < J ->
  exists psi phi psi0 phi0,
    filters_directional L N J_min lam spin spin0 = Ok (psi, phi) /\
    filters_directional L N J_min lam 0 0 = Ok (psi0, phi0) /\
    forall l, Z.max (Z.abs spin) (Z.abs spin0) <= l < L ->
      get1 phi l = (sign_of spin0 * sqrt (spin_ratio l spin0) * get1 phi0 l)%R /\
      forall j m, 0 <= j <= J -> Z.abs m < L ->
        get3 psi j l (L - 1 + m)
        = Cmult (RtoC (sign_of spin0 * sqrt (spin_ratio l spin0))) (get3 psi0 j l (L - 1 + m)).
Proof. exact spin0_looped. Qed.
Print Assumptions C20_looped_spin0_scales.

Example C20_example : filters_directional_vectorised 5 2 1 2 0 2 = Err ValueError /\
  filters_directional_jax 5 2 1 2 0 2 = Err TypeError /\
  exists p, filters_directional 5 2 1 2 0 2 = Ok p.
Proof. exact ex_spin0. Qed.

(** ** C38: scaling functions nest *)
Theorem C38_scaling_functions_nest : forall L lam J_min psi phi psi0 phi0 k, 1 <= L -> (1 < lam)%R ->
  filters_axisym_vectorised L J_min lam = Ok (psi, phi) ->
  filters_axisym_vectorised L 0 lam = Ok (psi0, phi0) -> k_lam L lam 300 = Ok k ->
  psi = psi0 /\
  forall l, 0 <= l < L ->
    (forall j, 0 <= j < J_min -> (get2 k j l <= get2 k (j + 1) l)%R) ->
    (get1 phi l ^ 2 = get1 phi0 l ^ 2 + sumZ 0 J_min (fun j => get2 psi0 j l ^ 2))%R.
Proof. exact scal_nest. Qed.
Print Assumptions C38_scaling_functions_nest.

Theorem C38_rows_do_not_depend_on_J_min : forall L lam J_min J_min' J psi phi psi' phi', 1 <= L -> (1 < lam)%R ->
  filters_axisym L J_min lam = Ok (psi, phi) -> filters_axisym L J_min' lam = Ok (psi', phi') ->
  j_max L lam = Ok J ->
  forall j l, 0 <= l < L -> J_min <= j <= J -> J_min' <= j -> get2 psi j l = get2 psi' j l.
Proof. exact rows_indep. Qed.
Print Assumptions C38_rows_do_not_depend_on_J_min.

Example C38_example : exists p q p0 q0, filters_axisym_vectorised 5 2 2 = Ok (p, q) /\
  filters_axisym_vectorised 5 0 2 = Ok (p0, q0) /\
  (get1 q 3 ^ 2 = get1 q0 3 ^ 2 + sumZ 0 2 (fun j => get2 p0 j 3 ^ 2))%R.
Proof. exact ex_nest. Qed.

(** ** C39: filters do not depend on the band-limit *)
Theorem C39_band_limit_independence_looped : forall L L' N lam J_min J J' spin spin0 psi phi psi' phi',
  1 <= L <= L' -> 1 <= N -> (1 < lam)%R ->
  filters_directional L N J_min lam spin spin0 = Ok (psi, phi) ->
  filters_directional L' N J_min lam spin spin0 = Ok (psi', phi') ->
  j_max L lam = Ok J -> j_max L' lam = Ok J' ->
  forall l, 0 <= l < L ->
    get1 phi l = get1 phi' l /\
    forall m, Z.abs m < L ->
      (forall j, 0 <= j <= J -> get3 psi j l (L - 1 + m) = get3 psi' j l (L' - 1 + m)) /\
      (forall j, J < j <= J' -> get3 psi' j l (L' - 1 + m) = RtoC 0).
Proof. exact L_indep. Qed.
Print Assumptions C39_band_limit_independence_looped.

Theorem C39_band_limit_independence_vectorised : forall L L' N lam J_min J J' spin spin0 psi phi psi' phi',
  1 <= L <= L' -> 1 <= N -> (1 < lam)%R ->
  filters_directional_vectorised L N J_min lam spin spin0 = Ok (psi, phi) ->
  filters_directional_vectorised L' N J_min lam spin spin0 = Ok (psi', phi') ->
  j_max L lam = Ok J -> j_max L' lam = Ok J' ->
  forall l, 0 <= l < L ->
    get1 phi l = get1 phi' l /\
    forall m, Z.abs m < L ->
      (forall j, 0 <= j <= J -> get3 psi j l (L - 1 + m) = get3 psi' j l (L' - 1 + m)) /\
      (forall j, J < j <= J' -> get3 psi' j l (L' - 1 + m) = RtoC 0).
Proof. exact L_indep_vec. Qed.
Print Assumptions C39_band_limit_independence_vectorised.

Example C39_example : (exists p, filters_directional 5 2 1 2 0 0 = Ok p) /\
  (exists p, filters_directional 9 2 1 2 0 0 = Ok p) /\ j_max 5 2 = Ok 3 /\ j_max 9 2 = Ok 4.
Proof. exact ex_indep. Qed.

(** ** C40: axisymmetric case N = 1 *)
Theorem C40_axisymmetric_case : forall L lam J_min J spin psi phi apsi aphi, 1 <= L -> (1 < lam)%R ->
  (filters_directional L 1 J_min lam spin 0 = Ok (psi, phi) /\
   filters_axisym L J_min lam = Ok (apsi, aphi)) \/
  (filters_directional_vectorised L 1 J_min lam spin 0 = Ok (psi, phi) /\
   filters_axisym_vectorised L J_min lam = Ok (apsi, aphi)) ->
  j_max L lam = Ok J ->
  forall l, Z.abs spin <= l < L ->
    get1 phi l = (sqrt ((2 * IZR l + 1) / (4 * PI)) * get1 aphi l)%R /\
    forall j, 0 <= j <= J ->
      get3 psi j l (L - 1) = RtoC (sqrt ((2 * IZR l + 1) / (8 * PI ^ 2)) * get2 apsi j l) /\
      forall m, Z.abs m < L -> m <> 0 -> get3 psi j l (L - 1 + m) = RtoC 0.
Proof. exact axisym_case. Qed.
Print Assumptions C40_axisymmetric_case.

Example C40_example : exists p q a b, filters_directional 5 1 1 2 0 0 = Ok (p, q) /\
  filters_axisym 5 1 2 = Ok (a, b).
Proof. exact ex_axisym_case. Qed.

(** ** C47: vectorised quadrature equals looped quadrature *)
Theorem C47_jax_quadrature : forall lam a b n, (1 < lam)%R -> 1 <= n -> (1 / lam <= a)%R -> (a <= b)%R -> (b <= 1)%R ->
  part_scaling_fn a b n lam = Ok (part_scaling_fn_jax a b n lam).
Proof. exact jax_quad. Qed.
Print Assumptions C47_jax_quadrature.

Example C47_example : part_scaling_fn (1 / 2) (3 / 4) 10 2 = Ok (part_scaling_fn_jax (1 / 2) (3 / 4) 10 2).
Proof. exact ex_jax_quad. Qed.
