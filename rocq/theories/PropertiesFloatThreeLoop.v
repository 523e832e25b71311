(** * The looped transforms with dilation 3 in binary64 *)

From Coq Require Import ZArith Reals List Bool.
From Flocq Require Import Core IEEE754.BinarySingleNaN.
From Verif Require Import Py ModelSamples ModelFilters ModelFloat ModelFloatDir ModelFloatTrans ModelFloatLoop Spec SpecTransforms SpecFp SpecFpDir SpecFpMany SpecThree.
From Verif Require Import FloatThreeLoopProps.
Import ListNotations.
Open Scope Z_scope.

(** the looped directional filters are infinite or NaN at degree 794, for every order that carries a direction *)
Theorem C90_looped_filters : forall fexp fpow flg J L N J_min spin psi phi, 795 <= L <= 2 ^ 53 -> 1 <= N -> 6 <= J <= 32 -> J_min <= 6 -> Z.abs spin <= 794 ->
  accurate_exp fexp -> overflowing_exp fexp -> powers_of_three fpow J -> accurate_loggamma_to 1023 flg -> relative_exp_to (7093 / 10) fexp ->
  filters_directional_fp fexp fpow flg J L N J_min (fint 3) spin 0 = Ok (psi, phi) ->
  forall n, Z.abs n < N -> Z.abs n <= 794 -> (n - N) mod 2 = 1 -> is_finite (fst (get3 psi 6 794 (L - 1 + n))) = false.
Proof. exact fp3_loop_filters. Qed.
Print Assumptions C90_looped_filters.

(** analysis with loops *)
Theorem C90_looped_analysis : forall fexp fpow flg O J f L N J_min spin s nside reality mr f_wav f_scal,
  795 <= L <= 2 ^ 50 -> 1 <= N <= L -> j_max L 3 = Ok J -> J_min <= 6 -> Z.abs spin <= 794 ->
  accurate_exp fexp -> overflowing_exp fexp -> powers_of_three fpow J -> accurate_loggamma_to 1023 flg -> relative_exp_to (7093 / 10) fexp ->
  documented_shapes O -> sampling_known s nside ->
  analysis_looped_fp fexp fpow flg O J f L N J_min (fint 3) spin 0 s nside reality mr = Ok (f_wav, f_scal) ->
  exists flmn Lj Nj L0j y, LN_j L 6 N 3 mr = Ok (Lj, Nj, L0j) /\ lrd f_wav (6 - J_min) = Ok y /\
    winv64 O flmn Lj Nj L0j s reality nside = Ok y /\
    forall n m, Z.abs n < Nj -> Z.abs n <= 794 -> (n - N) mod 2 = 1 -> Z.abs m <= 794 -> is_finite (fst (get3 flmn (Nj - 1 + n) 794 (Lj - 1 + m))) = false.
Proof. exact fp3_loop_analysis. Qed.
Print Assumptions C90_looped_analysis.

(** synthesis with loops *)
Theorem C90_looped_synthesis : forall fexp fpow flg O J f_wav f_scal L N J_min spin s nside reality mr g,
  795 <= L <= 2 ^ 50 -> 1 <= N <= L -> j_max L 3 = Ok J -> J_min <= 6 -> Z.abs spin <= 794 ->
  accurate_exp fexp -> overflowing_exp fexp -> powers_of_three fpow J -> accurate_loggamma_to 1023 flg -> relative_exp_to (7093 / 10) fexp ->
  documented_shapes O ->
  synthesis_looped_fp fexp fpow flg O J f_wav f_scal L N J_min (fint 3) spin 0 s nside reality mr = Ok g ->
  exists flm, inv64 O flm L spin s nside reality = Ok g /\ rows flm = L /\ cols flm = 2 * L - 1 /\
    forall m, Z.abs m <= 794 -> is_finite (fst (get2 flm 794 (L - 1 + m))) = false.
Proof. exact fp3_loop_synthesis. Qed.
Print Assumptions C90_looped_synthesis.

(** L = 1000 (J = 7), N = 3, J_min = 6, full resolution, vanishing coefficients, and a library storing harmonic coefficients as they are *)
Example C90_looped_example : exists fexp fpow flg O f_wav f_scal g, accurate_exp fexp /\ overflowing_exp fexp /\ powers_of_three fpow 7 /\
  accurate_loggamma_to 1023 flg /\ relative_exp_to (7093 / 10) fexp /\ documented_shapes O /\ j_max 1000 3 = Ok 7 /\
  synthesis_looped_fp fexp fpow flg O 7 f_wav f_scal 1000 3 6 (fint 3) 0 0 MW None false false = Ok g /\
  is_finite (fst (ndat64 g [794; 999])) = false.
Proof. exact ex_c90_loop. Qed.
