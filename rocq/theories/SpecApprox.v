(** * Specification vocabulary: transforms that invert each other only approximately

    HEALPix has no sampling theorem.  Errors are measured by energies, that is by
    the squares of the norms on the sphere and on SO(3). *)

From Coq Require Import ZArith Reals List.
From Coquelicot Require Import Complex.
From Verif Require Import Py ModelSamples ModelFilters ModelTransforms Spec SpecTransforms SpecSteer SpecSignal.
Open Scope Z_scope.

(** as [inverts], but what comes back is off by a relative error of at most eps in norm *)
Definition nearly_inverts {A} (eps : R) (energy : A -> R) (sub : A -> A -> A) (P : A -> Prop) (shape : res (list Z))
    (inv : A -> res nd) (fwd : nd -> res A) : Prop :=
  forall a, P a -> exists f b, inv a = Ok f /\ shape = Ok (nshape f) /\ fwd f = Ok b /\ P b /\
    (energy (sub b a) <= eps ^ 2 * energy a)%R.
(** the transforms at band-limits up to L and N, in one sampling *)
Definition nearly_exact (eps : R) (O : s2fft) (L N spin : Z) (s : sampling) (nside : option Z) (reality : bool) : Prop :=
  (forall L', 1 <= L' <= L -> nearly_inverts eps energy2 sub2 (is_harmonic L' spin reality) (s2_f_shape L' s nside)
     (fun a => b_inv O a L' spin s nside reality) (fun f => b_fwd O f L' spin s nside reality)) /\
  (forall L' N' L0, 1 <= L' <= L -> 1 <= N' <= N -> N' <= L' + 1 -> 0 <= L0 <= L' ->
     nearly_inverts eps energy3 sub3 (is_wigner L' N' L0 reality) (so3_f_shape L' N' s nside)
     (fun a => b_winv O a L' N' L0 s reality nside) (fun f => b_wfwd O f L' N' L0 s reality nside)).
(** those that an implementation uses, and the single pixel that the backends write themselves *)
Definition nearly_exact_lib (eps : R) (b : impl) (O : s2fft) (L N J_min : Z) (lam : R) (spin : Z) (s : sampling)
    (nside : option Z) (reality : bool) : Prop :=
  nearly_exact eps (lib_of b O) L N spin s nside reality /\
  (b <> Base -> scal_bandlimit L J_min lam true = Ok 1 -> forall a, is_harmonic 1 spin reality a ->
     b_inv (lib_of b O) a 1 spin s nside reality = Ok (constant_field a)).
