(** * Vocabulary for the statements about the binary64 torch and SSHT transforms, as in SpecFpJax.v *)

From Coq Require Import ZArith List.
From Flocq Require Import IEEE754.BinarySingleNaN.
From Verif Require Import Py ModelSamples ModelTransforms ModelFloat ModelFloatDir ModelFloatTrans ModelFloatJax ModelFloatBack.
Open Scope Z_scope.

(** the kernels of the spherical transforms are those of spin 0 *)
Definition torch_lib (O : back64) : s2fft64 := S2fft64
  (fun f L spin s ns r => tf64 O f (SKern L 0 r s ns true) L s r spin ns)
  (fun a L spin s ns r => if L =? 1 then Ok (one_pixel64 a) else ti64 O a (SKern L 0 r s ns false) L s r spin ns)
  (fun f L N L0 s r ns => twf64 O f (WKern L N r s ns true) L N s r ns)
  (fun a L N L0 s r ns => twi64 O a (WKern L N r s ns false) L N s r ns).

(** SSHT takes the position of the sampling scheme in the list mw, mwss, dh, gl, and with reality the real parts *)
Definition scheme (s : sampling) : Z := match s with MW => 0 | MWSS => 1 | DH => 2 | _ => 3 end.
Definition ssht_scheme (s : sampling) : Prop := match s with MW | MWSS | DH | GL => True | _ => False end.
Definition ssht_lib (O : back64) : s2fft64 := S2fft64
  (fun f L spin s _ r => cf64 O (if r then nd_real64 f else f) L spin r (scheme s))
  (fun a L spin s _ r => if L =? 1 then Ok (one_pixel64 a) else ci64 O a L spin r (scheme s))
  (fun f L N L0 s r _ => cwf64 O f L N L0 s r)
  (fun a L N L0 s r _ => cwi64 O a L N L0 s r).
