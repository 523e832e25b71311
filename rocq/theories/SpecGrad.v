(** * Specification vocabulary: losses

    The losses differentiated in tests/test_gradients.py: sums of squared moduli, over the
    pixels of all maps, of the difference with a target. *)

From Coq Require Import ZArith Reals List.
From Coquelicot Require Import Complex.
From Verif Require Import Py ModelSamples ModelFilters ModelTransforms Spec SpecTransforms SpecSteer SpecSignal.
Import ListNotations.
Open Scope Z_scope.

(** ** The implementations as functions *)

(** T is the analysis of the implementation b, with the filters psi and phi: the two of base.py, and the
    others with the kernels construct.py makes for them (with the JAX one these may be left out) *)
Definition analyser (b : impl) (O : s2fft) (L N J_min : Z) (lam : R) (spin spin0 : Z) (s : sampling)
    (nside : option Z) (reality mr : bool) (psi : arr3 C) (phi : arr1 R) (T : nd -> res (list nd * nd)) : Prop :=
  match b with
  | Base =>
      filters_directional_vectorised L N J_min lam spin spin0 = Ok (psi, phi) /\
      T = (fun f => analysis O f L N J_min lam spin spin0 s nside reality mr false) \/
      filters_directional L N J_min lam spin spin0 = Ok (psi, phi) /\
      T = (fun f => analysis_looped O f L N J_min lam spin spin0 s nside reality mr)
  | Jax => is_filters L N J_min lam spin spin0 psi phi /\ mr = true /\
      exists p q, generate_wigner_precomputes L N J_min lam s nside false reality = Ok q /\
        (p = None \/ p = Some q) /\
        T = (fun f => jax_analysis O f L N J_min lam spin s nside reality (Some (psi, phi)) p)
  | Precompute => is_filters L N J_min lam spin spin0 psi phi /\ mr = true /\ spin = 0 /\
      exists p, generate_full_precomputes L N J_min lam s nside false reality false = Ok p /\
        T = (fun f => pre_analysis O f L N J_min lam spin s nside reality (Some (psi, phi)) (Some p))
  | Torch => is_filters L N J_min lam spin spin0 psi phi /\ mr = true /\ spin = 0 /\
      exists p, generate_full_precomputes L N J_min lam s nside false reality false = Ok p /\
        T = (fun f => x <- torch_analysis O f L N J_min lam spin s nside reality (Some (psi, phi)) (Some p) ;;
                      w <- mapM need (fst x) ;; Ok (w, snd x))
  | Ssht => is_filters L N J_min lam spin spin0 psi phi /\ mr = true /\ nside = None /\
      T = (fun f => ssht_analysis O f L N J_min lam spin s reality (Some (psi, phi)))
  end.

(** T is the synthesis of the implementation b *)
Definition synthesiser (b : impl) (O : s2fft) (L N J_min : Z) (lam : R) (spin spin0 : Z) (s : sampling)
    (nside : option Z) (reality mr : bool) (psi : arr3 C) (phi : arr1 R) (T : list nd * nd -> res nd) : Prop :=
  match b with
  | Base =>
      filters_directional_vectorised L N J_min lam spin spin0 = Ok (psi, phi) /\
      T = (fun x => synthesis O (fst x) (snd x) L N J_min lam spin spin0 s nside reality mr) \/
      filters_directional L N J_min lam spin spin0 = Ok (psi, phi) /\
      T = (fun x => synthesis_looped O (fst x) (snd x) L N J_min lam spin spin0 s nside reality mr)
  | Jax => is_filters L N J_min lam spin spin0 psi phi /\ mr = true /\
      exists p q, generate_wigner_precomputes L N J_min lam s nside true reality = Ok q /\
        (p = None \/ p = Some q) /\
        T = (fun x => jax_synthesis O (fst x) (snd x) L N J_min lam spin s nside reality (Some (psi, phi)) p)
  | Precompute => is_filters L N J_min lam spin spin0 psi phi /\ mr = true /\ spin = 0 /\
      exists p, generate_full_precomputes L N J_min lam s nside true reality false = Ok p /\
        T = (fun x => pre_synthesis O (fst x) (snd x) L N J_min lam spin s nside reality (Some (psi, phi)) (Some p))
  | Torch => is_filters L N J_min lam spin spin0 psi phi /\ mr = true /\ spin = 0 /\
      exists p, generate_full_precomputes L N J_min lam s nside true reality false = Ok p /\
        T = (fun x => torch_synthesis O (fst x) (snd x) L N J_min lam spin s nside reality (Some (psi, phi)) (Some p))
  | Ssht => is_filters L N J_min lam spin spin0 psi phi /\ mr = true /\ nside = None /\
      T = (fun x => ssht_synthesis O (fst x) (snd x) L N J_min lam spin s reality (Some (psi, phi)))
  end.

(** linear combinations and shapes of decompositions (wavelet maps, scaling map) *)
Definition lin_maps (a b : C) (x y : list nd * nd) : list nd * nd :=
  (lin_list a b (fst x) (fst y), lin_nd a b (snd x) (snd y)).
Definition maps_shape (x : list nd * nd) : list (list Z) * list Z := (map nshape (fst x), nshape (snd x)).

(** ** Losses *)

(** all index tuples of an array of a given shape *)
Fixpoint pixels (sh : list Z) : list (list Z) :=
  match sh with
  | [] => [[]]
  | n :: sh => flat_map (fun i => map (cons i) (pixels sh)) (zrange 0 n)
  end.
(** sum over the pixels of an array of shape sh *)
Definition sum_px (sh : list Z) (f : list Z -> R) : R := fold_right Rplus 0%R (map f (pixels sh)).

(** jnp.sum(jnp.abs(x - y) ** 2) *)
Definition sq_err (x y : nd) : R := sum_px (nshape x) (fun ix => (Cmod (Cminus (ndat x ix) (ndat y ix)) ^ 2)%R).
(** its slope at x in the direction d: the real inner product of 2 (x - y) and d *)
Definition sq_slope (x y d : nd) : R :=
  sum_px (nshape x) (fun ix => (2 * Re (Cmult (Cconj (Cminus (ndat x ix) (ndat y ix))) (ndat d ix)))%R).
(** jnp.sum(jnp.abs(d) ** 2) over the pixels of x *)
Definition sq_norm (x d : nd) : R := sum_px (nshape x) (fun ix => (Cmod (ndat d ix) ^ 2)%R).

(** the same for decompositions: sums over the scaling map and all wavelet maps *)
Fixpoint err_list (x y : list nd) : R :=
  match x, y with p :: x, q :: y => (sq_err p q + err_list x y)%R | _, _ => 0%R end.
Fixpoint slope_list (x y d : list nd) : R :=
  match x, y, d with p :: x, q :: y, r :: d => (sq_slope p q r + slope_list x y d)%R | _, _, _ => 0%R end.
Fixpoint norm_list (x y d : list nd) : R :=
  match x, y, d with p :: x, q :: y, r :: d => (sq_norm p r + norm_list x y d)%R | _, _, _ => 0%R end.
Definition maps_err (x y : list nd * nd) : R := (err_list (fst x) (fst y) + sq_err (snd x) (snd y))%R.
Definition maps_slope (x y d : list nd * nd) : R := (slope_list (fst x) (fst y) (fst d) + sq_slope (snd x) (snd y) (snd d))%R.
(** over the maps that have a target *)
Definition maps_norm (x y d : list nd * nd) : R := (norm_list (fst x) (fst y) (fst d) + sq_norm (snd x) (snd d))%R.

(** the loss of a result, if there is one *)
Definition loss {X} (err : X -> R) (r : res X) : R := match r with Ok x => err x | Err _ => 0%R end.
