(** * The scattering flag in binary64 *)

From Coq Require Import ZArith Reals List Bool.
From Coquelicot Require Import Complex.
From Flocq Require Import Core IEEE754.BinarySingleNaN.
From Verif Require Import Py ModelSamples ModelFilters ModelFloat ModelFloatDir ModelFloatTrans ModelFloatScat Spec SpecTransforms SpecFp SpecFpDir SpecFpTrans SpecFpScat.
From Verif Require Import FloatScatProps.
Import ListNotations.
Open Scope Z_scope.

(** ** C81: the scattering flag in binary64 *)
Theorem C81_flag_off : forall fexp fpow flg fhyp O J f L N J_min lam spin spin0 s nside reality mr,
  analysis_flag_fp fexp fpow flg fhyp O J f L N J_min lam spin spin0 s nside reality mr false
  = analysis_fp fexp fpow flg O J f L N J_min lam spin spin0 s nside reality mr.
Proof. exact scat_off. Qed.
Print Assumptions C81_flag_off.

Theorem C81_flag_on : forall fexp fpow flg fhyp O J f L N J_min lam spin spin0 s nside reality mr,
  accurate_hypot fhyp ->
  analysis_flag_fp fexp fpow flg fhyp O J f L N J_min lam spin spin0 s nside reality mr true
  = (' (w, sc) <- analysis_fp fexp fpow flg O J f L N J_min lam spin spin0 s nside reality mr ;;
     Ok (map (nd_abs64 fhyp) w, sc)).
Proof. exact scat_on. Qed.
Print Assumptions C81_flag_on.

(** u is the pixel in exact arithmetic, or any other number near the computed one *)
Theorem C81_pixels : forall fhyp f ix u e,
  accurate_hypot fhyp -> finite64 (ndat64 f ix) -> (Cmod (cval (ndat64 f ix)) <= bpow radix2 1000)%R ->
  (Cmod (cval (ndat64 f ix) - u)%C <= e)%R ->
  nshape64 (nd_abs64 fhyp f) = nshape64 f /\
  finite64 (ndat64 (nd_abs64 fhyp f) ix) /\
  snd (cval (ndat64 (nd_abs64 fhyp f) ix)) = 0%R /\ (0 <= fst (cval (ndat64 (nd_abs64 fhyp f) ix)))%R /\
  (Rabs (fst (cval (ndat64 (nd_abs64 fhyp f) ix)) - Cmod u) <= e + bpow radix2 (-52) * (Cmod u + e) + bpow radix2 (-1074))%R.
Proof. exact scat_pix. Qed.
Print Assumptions C81_pixels.

(** L = 5, N = 3, spin 1, scales 1 to 3: a library meets the hypotheses; on a separate map, a pixel equal to -1 has modulus 1 up to rounding *)
Example C81_example : exists fexp fpow flg fhyp O f w sc g,
  accurate_hypot fhyp /\
  analysis_fp fexp fpow flg O 3 f 5 3 1 (fint 2) 1 0 MW None false true = Ok (w, sc) /\
  analysis_flag_fp fexp fpow flg fhyp O 3 f 5 3 1 (fint 2) 1 0 MW None false true true = Ok (map (nd_abs64 fhyp) w, sc) /\
  analysis_flag_fp fexp fpow flg fhyp O 3 f 5 3 1 (fint 2) 1 0 MW None false true false = Ok (w, sc) /\
  finite64 (ndat64 g [2; 5]%Z) /\ (Cmod (cval (ndat64 g [2; 5]%Z) - RtoC (-1))%C <= 0)%R /\
  (Rabs (fst (cval (ndat64 (nd_abs64 fhyp g) [2; 5]%Z)) - 1) <= / 1000)%R.
Proof. exact ex_c81. Qed.
