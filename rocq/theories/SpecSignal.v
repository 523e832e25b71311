(** * Specification vocabulary: transforms observed from outside

    Wavelet and scaling maps are compared through the harmonic and Wigner
    coefficients that the library's own forward transforms read from them. *)

From Coq Require Import ZArith Reals List.
From Coquelicot Require Import Complex.
From Verif Require Import Py ModelSamples ModelFilters ModelTransforms Spec SpecTransforms SpecSteer.
Import ListNotations.
Open Scope Z_scope.

(** ** The implementations of the transforms *)

(** the two implementations of base.py, and those of wavelet.py, wavelet_precompute.py,
    wavelet_precompute_torch.py and wavelet_c.py (construct.py makes their kernels) *)
Inductive impl := Base | Jax | Precompute | Torch | Ssht.

(** the spherical and Wigner transforms that an implementation uses, as a library of their own: the
    entry points of that backend, with the kernels meant for them, in the place of the base ones *)
Definition lib_of (b : impl) (O : s2fft) : s2fft :=
  let put fwd inv wfwd winv := S2fft fwd inv wfwd winv (j_fwd O) (j_inv O) (j_wfwd O) (j_winv O)
    (p_fwd O) (p_inv O) (p_wfwd O) (p_winv O) (t_fwd O) (t_inv O) (t_wfwd O) (t_winv O)
    (c_fwd O) (c_inv O) (c_wfwd O) (c_winv O) in
  let ix s := match s with MW => 0 | MWSS => 1 | DH => 2 | _ => 3 end in
  match b with
  | Base => O
  | Jax => put
      (fun f L spin s ns r => j_fwd O f L spin ns s r)
      (fun a L spin s ns r => j_inv O a L spin ns s r)
      (fun f L N L0 s r ns => j_wfwd O f L N ns s r (RKern L N s ns true r L0) L0)
      (fun a L N L0 s r ns => j_winv O a L N ns s r (RKern L N s ns false r L0) L0)
  | Precompute => put
      (fun f L spin s ns r => p_fwd O f (SKern L spin r s ns true) L s r spin ns)
      (fun a L spin s ns r => p_inv O a (SKern L spin r s ns false) L s r spin ns)
      (fun f L N L0 s r ns => p_wfwd O f (WKern L N r s ns true) L N s r ns)
      (fun a L N L0 s r ns => p_winv O a (WKern L N r s ns false) L N s r ns)
  | Torch => put
      (fun f L spin s ns r => t_fwd O f (SKern L spin r s ns true) L s r spin ns)
      (fun a L spin s ns r => t_inv O a (SKern L spin r s ns false) L s r spin ns)
      (fun f L N L0 s r ns => t_wfwd O f (WKern L N r s ns true) L N s r ns)
      (fun a L N L0 s r ns => t_winv O a (WKern L N r s ns false) L N s r ns)
  | Ssht => put
      (fun f L spin s ns r => c_fwd O f L spin r (ix s))
      (fun a L spin s ns r => c_inv O a L spin r (ix s))
      (fun f L N L0 s r ns => c_wfwd O f L N L0 s r)
      (fun a L N L0 s r ns => c_winv O a L N L0 s r)
  end.

(** the transforms used by b invert each other; where the scaling map has band-limit 1 the backends
    write its single pixel themselves, which has to be what the inverse transform would return *)
Definition exact_lib (b : impl) (O : s2fft) (L J_min : Z) (lam : R) (spin : Z) (s : sampling)
    (nside : option Z) (reality : bool) : Prop :=
  exact_b (lib_of b O) spin s nside reality /\
  (b <> Base -> scal_bandlimit L J_min lam true = Ok 1 -> forall a, is_harmonic 1 spin reality a ->
     b_inv (lib_of b O) a 1 spin s nside reality = Ok (constant_field a)).

(** what b is written for: the backends are multiresolution only, the precompute and Torch kernels are
    those of spin 0, the C backend has no HEALPix and takes the real part of the scaling map of a real signal *)
Definition usable (b : impl) (O : s2fft) (spin : Z) (s : sampling) (nside : option Z) (reality mr : bool) : Prop :=
  match b with
  | Base => True
  | Jax => mr = true
  | Precompute | Torch => mr = true /\ spin = 0
  | Ssht => mr = true /\ nside = None /\
      (reality = true -> forall L a f, is_harmonic L spin true a ->
         b_inv (lib_of Ssht O) a L spin s None true = Ok f -> nd_real f = f)
  end.

(** (w, sc) is the result of analysing f with the implementation b, psi and phi being its filters *)
Definition analysed (b : impl) (O : s2fft) (f : nd) (L N J_min : Z) (lam : R) (spin spin0 : Z) (s : sampling)
    (nside : option Z) (reality mr : bool) (psi : arr3 C) (phi : arr1 R) (w : list nd) (sc : nd) : Prop :=
  match b with
  | Base =>
      filters_directional_vectorised L N J_min lam spin spin0 = Ok (psi, phi) /\
      analysis O f L N J_min lam spin spin0 s nside reality mr false = Ok (w, sc) \/
      filters_directional L N J_min lam spin spin0 = Ok (psi, phi) /\
      analysis_looped O f L N J_min lam spin spin0 s nside reality mr = Ok (w, sc)
  | Jax => is_filters L N J_min lam spin spin0 psi phi /\ mr = true /\
      exists p q, generate_wigner_precomputes L N J_min lam s nside false reality = Ok q /\
        (p = None \/ p = Some q) /\
        jax_analysis O f L N J_min lam spin s nside reality (Some (psi, phi)) p = Ok (w, sc)
  | Precompute => is_filters L N J_min lam spin spin0 psi phi /\ mr = true /\ spin = 0 /\
      exists p, generate_full_precomputes L N J_min lam s nside false reality false = Ok p /\
        pre_analysis O f L N J_min lam spin s nside reality (Some (psi, phi)) (Some p) = Ok (w, sc)
  | Torch => is_filters L N J_min lam spin spin0 psi phi /\ mr = true /\ spin = 0 /\
      exists p, generate_full_precomputes L N J_min lam s nside false reality false = Ok p /\
        torch_analysis O f L N J_min lam spin s nside reality (Some (psi, phi)) (Some p) = Ok (map Some w, sc)
  | Ssht => is_filters L N J_min lam spin spin0 psi phi /\ mr = true /\ nside = None /\
      ssht_analysis O f L N J_min lam spin s reality (Some (psi, phi)) = Ok (w, sc)
  end.

(** g is the result of synthesising (w, sc) with the implementation b *)
Definition resynthesised (b : impl) (O : s2fft) (w : list nd) (sc : nd) (L N J_min : Z) (lam : R) (spin spin0 : Z)
    (s : sampling) (nside : option Z) (reality mr : bool) (psi : arr3 C) (phi : arr1 R) (g : nd) : Prop :=
  match b with
  | Base =>
      filters_directional_vectorised L N J_min lam spin spin0 = Ok (psi, phi) /\
      synthesis O w sc L N J_min lam spin spin0 s nside reality mr = Ok g \/
      filters_directional L N J_min lam spin spin0 = Ok (psi, phi) /\
      (reality = true -> spin = 0 /\ reads_nonnegative O s nside) /\
      synthesis_looped O w sc L N J_min lam spin spin0 s nside reality mr = Ok g
  | Jax => is_filters L N J_min lam spin spin0 psi phi /\ mr = true /\
      exists p q, generate_wigner_precomputes L N J_min lam s nside true reality = Ok q /\
        (p = None \/ p = Some q) /\
        jax_synthesis O w sc L N J_min lam spin s nside reality (Some (psi, phi)) p = Ok g
  | Precompute => is_filters L N J_min lam spin spin0 psi phi /\ mr = true /\ spin = 0 /\
      exists p, generate_full_precomputes L N J_min lam s nside true reality false = Ok p /\
        pre_synthesis O w sc L N J_min lam spin s nside reality (Some (psi, phi)) (Some p) = Ok g
  | Torch => is_filters L N J_min lam spin spin0 psi phi /\ mr = true /\ spin = 0 /\
      exists p, generate_full_precomputes L N J_min lam s nside true reality false = Ok p /\
        torch_synthesis O w sc L N J_min lam spin s nside reality (Some (psi, phi)) (Some p) = Ok g
  | Ssht => is_filters L N J_min lam spin spin0 psi phi /\ mr = true /\ nside = None /\
      (reality = true -> nd_real sc = sc) /\
      ssht_synthesis O w sc L N J_min lam spin s reality (Some (psi, phi)) = Ok g
  end.

(** ** Coefficients of maps *)

(** W j (for J_min <= j <= J) and S are the coefficients of the wavelet maps w and the scaling map sc *)
Definition measured (O : s2fft) (L N J_min J : Z) (lam : R) (spin : Z) (s : sampling) (nside : option Z)
    (reality mr : bool) (w : list nd) (sc : nd) (W : Z -> arr3 C) (S : arr2 C) : Prop :=
  Z.of_nat (length w) = J - J_min + 1 /\
  (exists Ls, scal_bandlimit L J_min lam mr = Ok Ls /\ s2_f_shape Ls s nside = Ok (nshape sc) /\
     b_fwd O sc Ls spin s nside reality = Ok S /\ is_harmonic Ls spin reality S) /\
  forall j, J_min <= j <= J -> exists Lj Nj L0j y, LN_j L j N lam mr = Ok (Lj, Nj, L0j) /\
     nth_error w (Z.to_nat (j - J_min)) = Some y /\ so3_f_shape Lj Nj s nside = Ok (nshape y) /\
     b_wfwd O y Lj Nj L0j s reality nside = Ok (W j) /\ is_wigner Lj Nj L0j reality (W j).

(** inner products, antilinear in the first argument: of fields on the sphere, of maps on SO(3), of whole decompositions *)
Definition inner2 (a b : arr2 C) : C :=
  csumZ 0 (rows a) (fun l => csumZ 0 (cols a) (fun k => Cmult (Cconj (get2 a l k)) (get2 b l k))).
Definition inner3 (a b : arr3 C) : C :=
  csumZ 0 (dim1 a) (fun l => Cmult (RtoC ((2 * IZR l + 1) / (8 * PI ^ 2)))
    (csumZ 0 (dim0 a) (fun n => csumZ 0 (dim2 a) (fun k => Cmult (Cconj (get3 a n l k)) (get3 b n l k))))).
Definition inner (J_min J : Z) (W : Z -> arr3 C) (S : arr2 C) (V : Z -> arr3 C) (T : arr2 C) : C :=
  Cplus (csumZ J_min (J + 1) (fun j => inner3 (W j) (V j))) (inner2 S T).
Definition total_energy (J_min J : Z) (W : Z -> arr3 C) (S : arr2 C) : R :=
  (sumZ J_min (J + 1) (fun j => energy3 (W j)) + energy2 S)%R.
(** differences of coefficient arrays *)
Definition sub2 (a b : arr2 C) : arr2 C := lin2 (RtoC 1) (RtoC (-1)) a b.
Definition sub3 (a b : arr3 C) : arr3 C := lin3 (RtoC 1) (RtoC (-1)) a b.

(** the action of matrices D l on the orders m of every degree l (a rotation, when D l is the Wigner matrix D^l) *)
Definition rotate2 (D : Z -> Z -> Z -> C) (L : Z) (a : arr2 C) : arr2 C :=
  mk2 L (2 * L - 1) (fun l q => if Z.abs (q - (L - 1)) <=? l
    then csumZ (- l) (l + 1) (fun m => Cmult (D l (q - (L - 1)) m) (get2 a l (L - 1 + m))) else RtoC 0).
Definition rotate3 (D : Z -> Z -> Z -> C) (L N : Z) (a : arr3 C) : arr3 C :=
  mk3 (2 * N - 1) L (2 * L - 1) (fun n l q => if Z.abs (q - (L - 1)) <=? l
    then csumZ (- l) (l + 1) (fun m => Cmult (D l (q - (L - 1)) m) (get3 a n l (L - 1 + m))) else RtoC 0).

(** harmonic coefficient (l, m) of the section of a map on SO(3), with Wigner coefficients W, at the orientation g *)
Definition oriented (L N : Z) (W : arr3 C) (g : R) (l m : Z) : C :=
  csumZ (- N + 1) N (fun n => Cmult (cis (IZR n * g)) (get3 W (N - 1 + n) l (L - 1 + m))).
