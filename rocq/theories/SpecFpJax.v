(** * Vocabulary for the statements about the binary64 JAX transforms

    The spherical and Wigner transforms that a backend uses, as a library of their own: its entry points,
    with the kernels that construct.py makes for them, in the place of the base ones.  Where the scaling map
    has a single pixel the backends write it themselves; for band-limit 1 that is the inverse transform. *)

From Coq Require Import ZArith List.
From Flocq Require Import IEEE754.BinarySingleNaN.
From Verif Require Import Py ModelSamples ModelTransforms ModelFloat ModelFloatDir ModelFloatTrans ModelFloatJax.
Open Scope Z_scope.

Definition jax_lib (O : jax64) : s2fft64 := S2fft64
  (fun f L spin s ns r => jf64 O f L spin ns s r)
  (fun a L spin s ns r => if L =? 1 then Ok (one_pixel64 a) else ji64 O a L spin ns s r)
  (fun f L N L0 s r ns => jwf64 O f L N ns s r (RKern L N s ns true r L0) L0)
  (fun a L N L0 s r ns => jwi64 O a L N ns s r (RKern L N s ns false r L0) L0).
(** the kernels of the spherical transforms are those of spin 0 *)
Definition pre_lib (O : jax64) : s2fft64 := S2fft64
  (fun f L spin s ns r => pf64 O f (SKern L 0 r s ns true) L s r spin ns)
  (fun a L spin s ns r => if L =? 1 then Ok (one_pixel64 a) else pi64 O a (SKern L 0 r s ns false) L s r spin ns)
  (fun f L N L0 s r ns => pwf64 O f (WKern L N r s ns true) L N s r ns)
  (fun a L N L0 s r ns => pwi64 O a (WKern L N r s ns false) L N s r ns).

(** the same bits, or two zeros *)
Definition same64 (x y : f64) : Prop := x = y \/ exists s t, x = B754_zero s /\ y = B754_zero t.
Definition same_array (a b : arr3 c64) : Prop := dim0 a = dim0 b /\ dim1 a = dim1 b /\ dim2 a = dim2 b /\
  forall i j k, same64 (fst (get3 a i j k)) (fst (get3 b i j k)) /\ same64 (snd (get3 a i j k)) (snd (get3 b i j k)).
