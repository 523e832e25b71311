(** * What the theorems about the transforms assume of the external harmonic transforms

    Each definition below is a condition on the record [O] of s2fft functions.
    They appear only as hypotheses of theorems; concrete instances are exhibited
    in PropertiesTransforms.v. *)

From Coq Require Import ZArith Reals List Bool.
From Coquelicot Require Import Complex.
From Verif Require Import Py ModelSamples ModelFilters ModelTransforms Spec.
Import ListNotations.
Open Scope Z_scope.

(** the filter pair comes from one of the three directional generators *)
Definition is_filters (L N J_min : Z) (lam : R) (spin spin0 : Z) (psi : arr3 C) (phi : arr1 R) : Prop :=
  filters_directional L N J_min lam spin spin0 = Ok (psi, phi) \/
  filters_directional_vectorised L N J_min lam spin spin0 = Ok (psi, phi) \/
  filters_directional_jax L N J_min lam spin spin0 = Ok (psi, phi).

(** ** Shapes *)

(** forward transforms return coefficient arrays of the documented shapes *)
Definition fwd_shapes_b (O : s2fft) (spin : Z) (s : sampling) (nside : option Z) (reality : bool) : Prop :=
  (forall f L flm, b_fwd O f L spin s nside reality = Ok flm -> shape2 flm = [L; 2 * L - 1]) /\
  (forall f L N L0 a, b_wfwd O f L N L0 s reality nside = Ok a -> shape3 a = [2 * N - 1; L; 2 * L - 1]).
(** inverse transforms return pixel arrays of the documented shapes *)
Definition inv_shapes_b (O : s2fft) (spin : Z) (s : sampling) (nside : option Z) (reality : bool) : Prop :=
  (forall a L f, b_inv O a L spin s nside reality = Ok f -> s2_f_shape L s nside = Ok (nshape f)) /\
  (forall a L N L0 f, b_winv O a L N L0 s reality nside = Ok f -> so3_f_shape L N s nside = Ok (nshape f)).

(** ** Exactness: the sampling theorems *)

Definition exact_b (O : s2fft) (spin : Z) (s : sampling) (nside : option Z) (reality : bool) : Prop :=
  (forall L, 1 <= L -> inverts (is_harmonic L spin reality) (s2_f_shape L s nside)
     (fun a => b_inv O a L spin s nside reality) (fun f => b_fwd O f L spin s nside reality)) /\
  (forall L N L0, 1 <= L -> 1 <= N <= L + 1 -> 0 <= L0 <= L ->
     inverts (is_wigner L N L0 reality) (so3_f_shape L N s nside)
     (fun a => b_winv O a L N L0 s reality nside) (fun f => b_wfwd O f L N L0 s reality nside)).
Definition exact_j (O : s2fft) (spin : Z) (s : sampling) (nside : option Z) (reality : bool) : Prop :=
  (forall L, 1 <= L -> inverts (is_harmonic L spin reality) (s2_f_shape L s nside)
     (fun a => j_inv O a L spin nside s reality) (fun f => j_fwd O f L spin nside s reality)) /\
  (forall L N L0, 1 <= L -> 1 <= N <= L + 1 -> 0 <= L0 <= L ->
     inverts (is_wigner L N L0 reality) (so3_f_shape L N s nside)
     (fun a => j_winv O a L N nside s reality (RKern L N s nside false reality L0) L0)
     (fun f => j_wfwd O f L N nside s reality (RKern L N s nside true reality L0) L0)).
Definition exact_p (O : s2fft) (s : sampling) (nside : option Z) (reality : bool) : Prop :=
  (forall L, 1 <= L -> inverts (is_harmonic L 0 reality) (s2_f_shape L s nside)
     (fun a => p_inv O a (SKern L 0 reality s nside false) L s reality 0 nside)
     (fun f => p_fwd O f (SKern L 0 reality s nside true) L s reality 0 nside)) /\
  (forall L N, 1 <= L -> 1 <= N <= L + 1 ->
     inverts (is_wigner L N 0 reality) (so3_f_shape L N s nside)
     (fun a => p_winv O a (WKern L N reality s nside false) L N s reality nside)
     (fun f => p_wfwd O f (WKern L N reality s nside true) L N s reality nside)).
Definition exact_t (O : s2fft) (s : sampling) (nside : option Z) (reality : bool) : Prop :=
  (forall L, 1 <= L -> inverts (is_harmonic L 0 reality) (s2_f_shape L s nside)
     (fun a => t_inv O a (SKern L 0 reality s nside false) L s reality 0 nside)
     (fun f => t_fwd O f (SKern L 0 reality s nside true) L s reality 0 nside)) /\
  (forall L N, 1 <= L -> 1 <= N <= L + 1 ->
     inverts (is_wigner L N 0 reality) (so3_f_shape L N s nside)
     (fun a => t_winv O a (WKern L N reality s nside false) L N s reality nside)
     (fun f => t_wfwd O f (WKern L N reality s nside true) L N s reality nside)).
(** the C transforms know the sampling by its position in (mw, mwss, dh, gl) *)
Definition ssht_index (s : sampling) (ix : Z) : Prop :=
  s = MW /\ ix = 0 \/ s = MWSS /\ ix = 1 \/ s = DH /\ ix = 2 \/ s = GL /\ ix = 3.
Definition exact_c (O : s2fft) (spin : Z) (s : sampling) (ix : Z) (reality : bool) : Prop :=
  (forall L, 1 <= L -> inverts (is_harmonic L spin reality) (s2_f_shape L s None)
     (fun a => c_inv O a L spin reality ix) (fun f => c_fwd O f L spin reality ix)) /\
  (forall L N L0, 1 <= L -> 1 <= N <= L + 1 -> 0 <= L0 <= L ->
     inverts (is_wigner L N L0 reality) (so3_f_shape L N s None)
     (fun a => c_winv O a L N L0 s reality) (fun f => c_wfwd O f L N L0 s reality)).
(** fields synthesised from the coefficients of a real signal have no imaginary part *)
Definition real_fields (inv : arr2 C -> Z -> res nd) : Prop :=
  forall a L f, harmonic L 0 a -> real_harmonic L a -> inv a L = Ok f -> nd_real f = f.
(** the constant field with l = 0 coefficient a00, as a one by one pixel array *)
Definition constant_field (a : arr2 C) : nd :=
  Nd [1; 1] (fun ix => match ix with
                       | [i; j] => if (i =? 0) && (j =? 0)
                                   then Cmult (get2 a 0 0) (RtoC (sqrt (1 / (4 * PI)))) else RtoC 0
                       | _ => RtoC 0
                       end).
(** the forward transform at band-limit 1 reads such an array correctly *)
Definition one_point (spin : Z) (reality : bool) (fwd : nd -> res (arr2 C)) : Prop :=
  forall a, is_harmonic 1 spin reality a -> fwd (constant_field a) = Ok a.
(** with the reality flag, the inverse transform reads the orders m >= 0 only *)
Definition reads_nonnegative (O : s2fft) (s : sampling) (nside : option Z) : Prop :=
  forall L a b, rows a = L -> cols a = 2 * L - 1 -> rows b = L -> cols b = 2 * L - 1 ->
    (forall l m, 0 <= l < L -> 0 <= m < L -> get2 a l (L - 1 + m) = get2 b l (L - 1 + m)) ->
    b_inv O a L 0 s nside true = b_inv O b L 0 s nside true.

(** ** Agreement of the backends' transforms with the base ones *)

(** forward transforms return coefficients, not just arrays of the right shape *)
Definition fwd_coefs_b (O : s2fft) (spin : Z) (s : sampling) (nside : option Z) (reality : bool) : Prop :=
  (forall f L flm, b_fwd O f L spin s nside reality = Ok flm -> harmonic L spin flm) /\
  (forall f L N L0 a, b_wfwd O f L N L0 s reality nside = Ok a -> wigner L N L0 a).
(** at band-limit 1 the base inverse transform returns the constant field, on one pixel *)
Definition one_pixel_inverse (O : s2fft) (spin : Z) (s : sampling) (nside : option Z) (reality : bool) : Prop :=
  forall a, harmonic 1 spin a -> b_inv O a 1 spin s nside reality = Ok (constant_field a).
(** equal from the multipole L0 on (or the same exception) *)
Definition same_from (L0 : Z) (x y : res (arr3 C)) : Prop :=
  match x, y with
  | Ok a, Ok b => shape3 a = shape3 b /\ forall n l m, L0 <= l -> get3 a n l m = get3 b n l m
  | Err e, Err e' => e = e'
  | _, _ => False
  end.

Definition agrees_j (O : s2fft) : Prop :=
  (forall f L spin s nside reality, j_fwd O f L spin nside s reality = b_fwd O f L spin s nside reality) /\
  (forall a L spin s nside reality, harmonic L spin a ->
     j_inv O a L spin nside s reality = b_inv O a L spin s nside reality) /\
  (forall f L N L0 s nside reality, same_from L0
     (j_wfwd O f L N nside s reality (RKern L N s nside true reality L0) L0)
     (b_wfwd O f L N L0 s reality nside)) /\
  (forall a L N L0 s nside reality, wigner L N L0 a ->
     j_winv O a L N nside s reality (RKern L N s nside false reality L0) L0 = b_winv O a L N L0 s reality nside).
Definition agrees_p (O : s2fft) : Prop :=
  (forall f L spin s nside reality,
     p_fwd O f (SKern L spin reality s nside true) L s reality spin nside = b_fwd O f L spin s nside reality) /\
  (forall a L spin s nside reality, harmonic L spin a ->
     p_inv O a (SKern L spin reality s nside false) L s reality spin nside = b_inv O a L spin s nside reality) /\
  (forall f L N L0 s nside reality, same_from L0
     (p_wfwd O f (WKern L N reality s nside true) L N s reality nside)
     (b_wfwd O f L N L0 s reality nside)) /\
  (forall a L N L0 s nside reality, wigner L N L0 a ->
     p_winv O a (WKern L N reality s nside false) L N s reality nside = b_winv O a L N L0 s reality nside).
Definition agrees_t (O : s2fft) : Prop :=
  (forall f L spin s nside reality,
     t_fwd O f (SKern L spin reality s nside true) L s reality spin nside = b_fwd O f L spin s nside reality) /\
  (forall a L spin s nside reality, harmonic L spin a ->
     t_inv O a (SKern L spin reality s nside false) L s reality spin nside = b_inv O a L spin s nside reality) /\
  (forall f L N L0 s nside reality, same_from L0
     (t_wfwd O f (WKern L N reality s nside true) L N s reality nside)
     (b_wfwd O f L N L0 s reality nside)) /\
  (forall a L N L0 s nside reality, wigner L N L0 a ->
     t_winv O a (WKern L N reality s nside false) L N s reality nside = b_winv O a L N L0 s reality nside).
Definition agrees_c (O : s2fft) : Prop :=
  (forall f L spin s ix reality, ssht_index s ix -> (reality = true -> nd_real f = f) ->
     c_fwd O f L spin reality ix = b_fwd O f L spin s None reality) /\
  (forall a L spin s ix reality, ssht_index s ix -> harmonic L spin a ->
     c_inv O a L spin reality ix = b_inv O a L spin s None reality) /\
  (forall f L N L0 s reality, same_from L0
     (c_wfwd O f L N L0 s reality) (b_wfwd O f L N L0 s reality None)) /\
  (forall a L N L0 s reality, wigner L N L0 a ->
     c_winv O a L N L0 s reality = b_winv O a L N L0 s reality None).

(** ** Linearity *)

Definition lin2 (a b : C) (x y : arr2 C) : arr2 C :=
  Arr2 (rows x) (cols x) (fun i j => Cplus (Cmult a (get2 x i j)) (Cmult b (get2 y i j))).
Definition lin3 (a b : C) (x y : arr3 C) : arr3 C :=
  Arr3 (dim0 x) (dim1 x) (dim2 x) (fun i j k => Cplus (Cmult a (get3 x i j k)) (Cmult b (get3 y i j k))).
Definition lin_nd (a b : C) (f g : nd) : nd :=
  Nd (nshape f) (fun ix => Cplus (Cmult a (ndat f ix)) (Cmult b (ndat g ix))).
Definition lin_list (a b : C) (f g : list nd) : list nd :=
  map (fun p => lin_nd a b (fst p) (snd p)) (combine f g).
(** a transform is linear on the arguments it accepts: whenever it succeeds on
    two arguments of the same shape it succeeds on their combination, for the scalars [ok] allows *)
Definition linear {X Y S} (ok : C -> Prop) (shape : X -> S) (lx : C -> C -> X -> X -> X) (ly : C -> C -> Y -> Y -> Y)
    (t : X -> res Y) : Prop :=
  forall a b f g x y, ok a -> ok b -> shape f = shape g -> t f = Ok x -> t g = Ok y -> t (lx a b f g) = Ok (ly a b x y).
(** with the reality flag only real combinations make sense *)
Definition scalar (reality : bool) (c : C) : Prop := reality = true -> snd c = 0%R.
Definition linear_b (O : s2fft) (spin : Z) (s : sampling) (nside : option Z) (reality : bool) : Prop :=
  (forall L, linear (scalar reality) nshape lin_nd lin2 (fun f => b_fwd O f L spin s nside reality)) /\
  (forall L, linear (scalar reality) shape2 lin2 lin_nd (fun a => b_inv O a L spin s nside reality)) /\
  (forall L N L0, linear (scalar reality) nshape lin_nd lin3 (fun f => b_wfwd O f L N L0 s reality nside)) /\
  (forall L N L0, linear (scalar reality) shape3 lin3 lin_nd (fun a => b_winv O a L N L0 s reality nside)).

(** ** Energy *)

(** energy of harmonic coefficients, and of Wigner coefficients (the norms on the sphere and on
    SO(3) of the signals they stand for) *)
Definition energy2 (a : arr2 C) : R :=
  sumZ 0 (rows a) (fun l => sumZ 0 (cols a) (fun k => (Cmod (get2 a l k) ^ 2)%R)).
Definition energy3 (a : arr3 C) : R :=
  sumZ 0 (dim1 a) (fun l => ((2 * IZR l + 1) / (8 * PI ^ 2) *
    sumZ 0 (dim0 a) (fun n => sumZ 0 (dim2 a) (fun k => Cmod (get3 a n l k) ^ 2)))%R).

(** ** Kernels checked at every call

    [checked O] behaves as [O] but raises AssertionError whenever the kernel
    it is handed was not built for the call: other band-limits, spin,
    sampling, nside, reality, lower limit or direction. *)
Definition sampling_eqb (s t : sampling) : bool :=
  match s, t with
  | MW, MW | MWSS, MWSS | DH, DH | GL, GL | HEALPIX, HEALPIX | Unknown, Unknown => true
  | _, _ => false
  end.
Definition oz_eqb (a b : option Z) : bool :=
  match a, b with Some x, Some y => x =? y | None, None => true | _, _ => false end.
Definition rk_eqb (k k' : rkern) : bool :=
  (rk_L k =? rk_L k') && (rk_N k =? rk_N k') && sampling_eqb (rk_sampling k) (rk_sampling k') &&
  oz_eqb (rk_nside k) (rk_nside k') && Bool.eqb (rk_forward k) (rk_forward k') &&
  Bool.eqb (rk_reality k) (rk_reality k') && (rk_L_lower k =? rk_L_lower k').
Definition wk_eqb (k k' : wkern) : bool :=
  (wk_L k =? wk_L k') && (wk_N k =? wk_N k') && sampling_eqb (wk_sampling k) (wk_sampling k') &&
  oz_eqb (wk_nside k) (wk_nside k') && Bool.eqb (wk_forward k) (wk_forward k') &&
  Bool.eqb (wk_reality k) (wk_reality k').
Definition sk_eqb (k k' : skern) : bool :=
  (sk_L k =? sk_L k') && (sk_spin k =? sk_spin k') && sampling_eqb (sk_sampling k) (sk_sampling k') &&
  oz_eqb (sk_nside k) (sk_nside k') && Bool.eqb (sk_forward k) (sk_forward k') &&
  Bool.eqb (sk_reality k) (sk_reality k').
Definition chk {A} (b : bool) (r : res A) : res A := if b then r else Err AssertionError.

Definition checked (O : s2fft) : s2fft :=
  S2fft (b_fwd O) (b_inv O) (b_wfwd O) (b_winv O) (j_fwd O) (j_inv O)
    (fun f L N nside s reality k L0 =>
       chk (rk_eqb k (RKern L N s nside true reality L0)) (j_wfwd O f L N nside s reality k L0))
    (fun a L N nside s reality k L0 =>
       chk (rk_eqb k (RKern L N s nside false reality L0)) (j_winv O a L N nside s reality k L0))
    (fun f k L s reality spin nside =>
       chk (sk_eqb k (SKern L spin reality s nside true)) (p_fwd O f k L s reality spin nside))
    (fun a k L s reality spin nside =>
       chk (sk_eqb k (SKern L spin reality s nside false)) (p_inv O a k L s reality spin nside))
    (fun f k L N s reality nside =>
       chk (wk_eqb k (WKern L N reality s nside true)) (p_wfwd O f k L N s reality nside))
    (fun a k L N s reality nside =>
       chk (wk_eqb k (WKern L N reality s nside false)) (p_winv O a k L N s reality nside))
    (fun f k L s reality spin nside =>
       chk (sk_eqb k (SKern L spin reality s nside true)) (t_fwd O f k L s reality spin nside))
    (fun a k L s reality spin nside =>
       chk (sk_eqb k (SKern L spin reality s nside false)) (t_inv O a k L s reality spin nside))
    (fun f k L N s reality nside =>
       chk (wk_eqb k (WKern L N reality s nside true)) (t_wfwd O f k L N s reality nside))
    (fun a k L N s reality nside =>
       chk (wk_eqb k (WKern L N reality s nside false)) (t_winv O a k L N s reality nside))
    (c_fwd O) (c_inv O) (c_wfwd O) (c_winv O).

(** the Wigner coefficients of scale j, [sz j] = (Lj, Nj, L0j) being the sizes the library uses there *)
Definition wcoefs (L : Z) (psi : arr3 C) (flm : arr2 C) (sz : Z -> Z * Z * Z) (j : Z) : arr3 C :=
  let '(Lj, Nj, L0j) := sz j in wavelet_coefs L psi flm j Lj Nj L0j.

(** what the looped synthesis feeds to the inverse transform: as [synthesised], but with the
    reality flag the orders m < 0 covered by the scaling function get the wavelet part twice *)
Definition looped_synthesised (L J_min J spin : Z) (psi : arr3 C) (phi : arr1 R) (sz : Z -> Z * Z * Z)
    (W : Z -> arr3 C) (Ls : Z) (S : arr2 C) (reality : bool) : arr2 C :=
  mk2 L (2 * L - 1) (fun l b =>
    let m := b - (L - 1) in
    let wav m := csumZ J_min (J + 1) (fun j =>
                   let '(Lj, Nj, L0j) := sz j in wavelet_part L psi j Lj Nj L0j (W j) l m) in
    if reality && (m <? 0) && (Z.abs spin <=? l) && (l <? Ls) && (Z.abs m <=? l)
    then Cplus (wav m) (Cmult (RtoC (sign_of m)) (Cconj (Cplus (wav (- m)) (scaling_part phi Ls S l (- m)))))
    else Cplus (wav m) (scaling_part phi Ls S l m)).

(** the arrays W' (band-limits L, N) and W (band-limits Lj, Nj, lower limit L0j) hold the same
    Wigner coefficients where both are defined *)
Definition same_inside (L N : Z) (W' : arr3 C) (Lj Nj L0j : Z) (W : arr3 C) : Prop :=
  forall n l m, Z.abs n < Nj -> L0j <= l < Lj -> Z.abs m < Lj ->
    get3 W' (N - 1 + n) l (L - 1 + m) = get3 W (Nj - 1 + n) l (Lj - 1 + m).

(** positions of an axis of length n that a Python slice selects *)
Definition selected (n : Z) (s : slc) : list Z := map (sl_at n s) (zrange 0 (sl_len n s)).

(** what the vectorised transforms see of the filters psi: nothing at the scales j whose
    azimuthal band-limit Nj exceeds L *)
Definition azimuthal (L : Z) (sz : Z -> Z * Z * Z) (psi : arr3 C) : arr3 C :=
  mk3 (dim0 psi) (dim1 psi) (dim2 psi) (fun j l q =>
    let '(_, Nj, _) := sz j in if Nj <=? L then get3 psi j l q else RtoC 0).

(** the scale whose kernel the precompute backends use at scale j when asked to stop at J_max:
    their own scale below J_max; at J_max the previous one, or (index -1) the last one built *)
Definition kernel_scale (J_min J J_max j : Z) : Z :=
  if j <? J_max then j else if J_min <? J_max then J_max - 1 else J - 1.
