(** * Properties of samples.py (C01 - C06) *)

From Coq Require Import ZArith Reals List Bool.
From Coquelicot Require Import Complex.
From Verif Require Import Py ModelSamples Spec.
From Verif Require Import SamplesProps.
Import ListNotations.
Open Scope Z_scope.

(** ** C01: j_max is the least scale covering the band-limit *)
Theorem C01_j_max_is_least_covering_scale : forall L lam, 1 <= L -> (1 < lam)%R ->
  exists J, j_max L lam = Ok J /\ least_scale lam L J /\ 0 <= J /\
            (powerRZ lam (J - 1) < IZR L <= powerRZ lam J)%R.
Proof. exact j_max_least. Qed.
Print Assumptions C01_j_max_is_least_covering_scale.

Theorem C01_j_max_not_positive_for_contractions : forall L lam, 2 <= L -> (0 < lam < 1)%R ->
  exists J, j_max L lam = Ok J /\ J <= 0.
Proof. exact j_max_contraction. Qed.
Print Assumptions C01_j_max_not_positive_for_contractions.

Theorem C01_j_max_fails_outside : forall L lam,
  lam = 1%R \/ (lam < 0)%R \/ L <= 0 ->
  j_max L lam = Err OverflowError \/ j_max L lam = Err ValueError.
Proof. exact j_max_fails_outside. Qed.
Print Assumptions C01_j_max_fails_outside.

(** L = 5, lam = 2 has J = 3, and L = 1 has J = 0 *)
Example C01_example : j_max 5 2 = Ok 3 /\ j_max 1 2 = Ok 0 /\
  j_max 5 1 = Err OverflowError /\ (exists J, j_max 5 (1/2) = Ok J /\ J <= 0).
Proof. exact j_max_5_2. Qed.

(** ** C02: per-scale band-limits nest inside L and increase with the scale *)
Theorem C02_band_limits_nest : forall L N lam j, 1 <= L -> (1 < lam)%R -> 0 <= j ->
  LN_j L j N lam false = Ok (L, N, 0) /\
  exists Lj Nj L0j, LN_j L j N lam true = Ok (Lj, Nj, L0j) /\
    0 <= L0j /\ 1 <= Lj <= L /\
    is_ceil (powerRZ lam (Z.max j 1 - 1)) L0j /\
    (exists c, is_ceil (powerRZ lam (Z.max j 1 + 1)) c /\ Lj = Z.min c L).
Proof. exact band_limits_nest. Qed.
Print Assumptions C02_band_limits_nest.

Theorem C02_band_limits_monotone : forall L N lam j j' Lj Nj L0j Lj' Nj' L0j',
  (1 < lam)%R -> 0 <= j <= j' ->
  LN_j L j N lam true = Ok (Lj, Nj, L0j) -> LN_j L j' N lam true = Ok (Lj', Nj', L0j') ->
  Lj <= Lj' /\ L0j <= L0j'.
Proof. exact band_limits_monotone. Qed.
Print Assumptions C02_band_limits_monotone.

(** consecutive scales leave no gap, up to the largest scale *)
Theorem C02_band_limits_overlap : forall L N lam J j Lj Nj L0j Lj' Nj' L0j',
  1 <= L -> (1 < lam)%R -> j_max L lam = Ok J -> 0 <= j -> j + 1 <= J ->
  LN_j L j N lam true = Ok (Lj, Nj, L0j) -> LN_j L (j + 1) N lam true = Ok (Lj', Nj', L0j') ->
  L0j' <= Lj /\ L0j <= Lj /\ L0j' <= Lj'.
Proof. exact band_limits_overlap. Qed.
Print Assumptions C02_band_limits_overlap.

Example C02_example : LN_j 10 1 5 2 true = Ok (4, 5, 1) /\ LN_j 10 2 5 2 true = Ok (8, 5, 2) /\
  j_max 10 2 = Ok 4.
Proof. exact LN_j_10_2. Qed.

(** ** C03: the two finest scales live at full resolution *)
Theorem C03_finest_scales_full_resolution : forall L N lam J j s nside,
  2 <= L -> (1 < lam)%R -> 1 <= N -> j_max L lam = Ok J -> J - 1 <= j ->
  exists Nj,
    (exists L0j, LN_j L j N lam true = Ok (L, Nj, L0j)) /\
    (exists L0J, LN_j L J N lam true = Ok (L, Nj, L0J)) /\
    f_wav_j L j N lam s nside true = f_wav_j L J N lam s nside true /\
    flmn_wav_j L j N lam true = flmn_wav_j L J N lam true /\
    flmn_wav_j L j N lam true = Ok (2 * Nj - 1, L, 2 * L - 1).
Proof. exact finest_scales. Qed.
Print Assumptions C03_finest_scales_full_resolution.

(** the scattering buffers (allocated at scale J-1) have the shape of scale J *)
Theorem C03_scattering_buffer_fits : forall L N lam J s nside sh a b c,
  2 <= L -> (1 < lam)%R -> 1 <= N -> j_max L lam = Ok J ->
  f_wav_j L J N lam s nside true = Ok sh -> flmn_wav_j L J N lam true = Ok (a, b, c) ->
  (exists x, construct_f_scattering L N lam s nside true = Ok x /\ nshape x = sh) /\
  (exists y, construct_flmn_scattering L N lam true = Ok y /\ shape3 y = [a; b; c]).
Proof. exact scattering_buffer. Qed.
Print Assumptions C03_scattering_buffer_fits.

Example C03_example : 2 <= 10 /\ (1 < 2)%R /\ 1 <= 3 /\ j_max 10 2 = Ok 4 /\ 4 - 1 <= 3.
Proof. exact finest_example. Qed.

(** ** C04: per-scale directionality has the parity of N and never exceeds N *)
Theorem C04_directionality_per_scale : forall L N lam j mr Lj Nj L0j,
  1 <= L -> (1 < lam)%R -> 1 <= N -> 0 <= j ->
  LN_j L j N lam mr = Ok (Lj, Nj, L0j) ->
  Z.min N Lj <= Nj /\ 1 <= Nj <= N /\ (N - Nj) mod 2 = 0 /\
  (mr = true -> Nj <= Lj + 1) /\
  (forall n, In n (zrange_st (- Nj + 1) Nj 2) <-> (Z.abs n < Nj /\ (N - 1 - n) mod 2 = 0)).
Proof. exact directionality. Qed.
Print Assumptions C04_directionality_per_scale.

Example C04_example : LN_j 10 1 7 2 true = Ok (4, 5, 1) /\ LN_j 10 1 6 2 true = Ok (4, 4, 1).
Proof. exact directionality_example. Qed.

(** ** C05: array constructors and shape functions agree *)
Theorem C05_wigner_constructors : forall L N J_min lam mr J,
  1 <= L -> (1 < lam)%R -> 1 <= N -> j_max L lam = Ok J -> J_min <= J + 1 ->
  exists l, construct_flmn L N J_min lam mr = Ok l /\
    construct_flmn_jax L N J_min None lam mr = Ok l /\
    construct_flmn_jax L N J_min (Some J) lam mr = Ok l /\
    construct_flmn_torch L N J_min None lam mr = Ok l /\
    n_wav_scales L N J_min lam = Ok (Z.of_nat (length l)) /\
    (forall i a, nth_error l i = Some a ->
       flmn_wav_j L (J_min + Z.of_nat i) N lam mr = Ok (dim0 a, dim1 a, dim2 a) /\
       forall n el m, get3 a n el m = RtoC 0).
Proof. exact wigner_constructors. Qed.
Print Assumptions C05_wigner_constructors.

Theorem C05_pixel_constructors : forall L N J_min lam s nside mr J,
  1 <= L -> (1 < lam)%R -> 1 <= N -> sampling_known s nside ->
  j_max L lam = Ok J -> J_min <= J + 1 ->
  exists l, construct_f L N J_min lam s nside mr = Ok l /\
    n_wav_scales L N J_min lam = Ok (Z.of_nat (length l)) /\
    (forall i a, nth_error l i = Some a ->
       f_wav_j L (J_min + Z.of_nat i) N lam s nside mr = Ok (nshape a) /\
       forall ix, ndat a ix = RtoC 0) /\
    (* the JAX and torch versions: a list of the same length, without arrays *)
    (exists lj, construct_f_jax L J_min None lam = Ok lj /\ length lj = length l) /\
    (exists lt, construct_f_torch L J_min None lam = Ok lt /\ length lt = length l).
Proof. exact pixel_constructors. Qed.
Print Assumptions C05_pixel_constructors.

(** an explicit J_max replaces j_max: scales J_min to J_max, whatever it is *)
Theorem C05_explicit_J_max : forall L N J_min Jm lam mr,
  1 <= L -> (1 < lam)%R -> 1 <= N ->
  (exists l, construct_flmn_jax L N J_min (Some Jm) lam mr = Ok l /\
    construct_flmn_torch L N J_min (Some Jm) lam mr = Ok l /\
    length l = Z.to_nat (Jm + 1 - J_min) /\
    forall i a, nth_error l i = Some a ->
      flmn_wav_j L (J_min + Z.of_nat i) N lam mr = Ok (dim0 a, dim1 a, dim2 a) /\
      forall n el m, get3 a n el m = RtoC 0) /\
  (exists l, construct_f_jax L J_min (Some Jm) lam = Ok l /\ construct_f_torch L J_min (Some Jm) lam = Ok l /\
    length l = Z.to_nat (Jm + 1 - J_min) /\ forall e, In e l -> e = []).
Proof. exact explicit_J_max. Qed.
Print Assumptions C05_explicit_J_max.

Example C05_explicit_example : exists l, construct_f_torch 10 2 (Some 3) 2 = Ok l /\ length l = 2%nat /\
  exists l', construct_flmn_jax 10 3 2 (Some 3) 2 true = Ok l' /\ length l' = 2%nat.
Proof. exact explicit_example. Qed.

Theorem C05_scaling_constructors : forall L J_min lam mr s nside,
  1 <= L -> (1 < lam)%R ->
  exists Ls a, scal_bandlimit L J_min lam mr = Ok Ls /\ 1 <= Ls <= L /\
    construct_flm L J_min lam mr = Ok a /\ construct_flm_jax L J_min lam mr = Ok a /\
    shape2 a = [Ls; 2 * Ls - 1] /\ (forall el m, get2 a el m = RtoC 0) /\
    f_scal L J_min lam s nside mr = s2_f_shape Ls s nside.
Proof. exact scaling_constructors. Qed.
Print Assumptions C05_scaling_constructors.

Example C05_example : 1 <= 10 /\ (1 < 2)%R /\ 1 <= 3 /\ sampling_known HEALPIX (Some 8) /\
  j_max 10 2 = Ok 4 /\ 2 <= 4 + 1.
Proof. exact constructors_example. Qed.

(** ** C06: the shape check accepts exactly the right shapes *)
Theorem C06_shape_check_exact : forall f_w f_s L N J_min lam s nside mr J,
  1 <= L -> (1 < lam)%R -> sampling_known s nside -> j_max L lam = Ok J -> 0 <= J_min <= J ->
  let r := wavelet_shape_check f_w f_s L N J_min lam s nside mr in
  (r = Ok tt <->
     n_wav_scales L N J_min lam = Ok (Z.of_nat (length f_w)) /\
     f_scal L J_min lam s nside mr = Ok (nshape f_s) /\
     forall i a, nth_error f_w i = Some a ->
       f_wav_j L (J_min + Z.of_nat i) N lam s nside mr = Ok (nshape a)) /\
  (r = Ok tt \/ r = Err AssertionError).
Proof. exact shape_check_exact. Qed.
Print Assumptions C06_shape_check_exact.

(** freshly constructed arrays pass the check, and dropping the last one fails it *)
Example C06_example : exists f_w sc,
  construct_f 10 3 2 2 MW None true = Ok f_w /\
  wavelet_shape_check f_w sc 10 3 2 2 MW None true = Ok tt /\
  wavelet_shape_check (removelast f_w) sc 10 3 2 2 MW None true = Err AssertionError.
Proof. exact shape_check_example. Qed.
