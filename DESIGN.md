# Design

Formal model of astro-informatics/s2wav (pinned source in /repo, never executed) in Coq 8.16.1.

## Layers

| file (rocq/theories) | content |
|---|---|
| `Py.v` | Python/numpy substrate: exceptions as values (`res`), `range` loops, n-d arrays with shape, Python index and slice semantics (negative wrap, clipping, stride), the einsum patterns used (with size-1 broadcasting), complex sums |
| `ModelSamples.v` | samples.py, function by function |
| `ModelFilters.v` | filters.py, function by function (exact real arithmetic) |
| `ModelTransforms.v` | base.py, wavelet.py, wavelet_c.py, wavelet_precompute(.torch).py, construct.py, with s2fft as a record of oracles |
| `ModelFloat.v` | binary64 (Flocq) model of j_max, the band-limits, the quadrature loop and the two numpy axisymmetric filter functions |
| `ModelFloatDir.v` | binary64 model of the binomial coefficients, the directional component, the spin normalisation and the two numpy directional filter functions |
| `ModelFloatBack.v` | binary64 model of wavelet_precompute_torch.py and wavelet_c.py and of the four flm_to_analysis |
| `ModelFloatJaxFilt.v` | binary64 model of the JAX filters |
| `ModelFloatLoop.v` | binary64 model of the looped base transforms |
| `ModelFloatScat.v` | binary64 model of base analysis with the scattering flag |
| `ModelFloatJax.v` | binary64 model of wavelet.py and wavelet_precompute.py (analysis, synthesis) and of the kernel lists of construct.py |
| `ModelFloatTrans.v` | binary64 model of the vectorised base transforms and the constructors they use, with s2fft as functions on complex128 arrays |
| `Spec.v` | small specification vocabulary used in theorem statements only |
| `SpecTransforms.v` | the same for the transforms: target coefficients, contracts on s2fft |
| `SpecQuad.v` | the documented integrals behind k_lam and the error bound used in C50, C51 |
| `SpecSteer.v` | rotation of a filter about the z axis, steering weights, directional exponent (C52, C53) |
| `SpecSignal.v` | the implementations and their own transforms; the transforms observed from outside: maps measured with the forward transforms, inner products, energy, rotation of coefficients, orientation (C31, C54 to C60) |
| `SpecApprox.v` | transforms that invert each other up to a relative error in norm (C85) |
| `SpecGrad.v` | the implementations as functions, sums of squares over pixels and their slopes (C30, C68) |
| `SpecFp.v` | hypotheses on pow and exp and the sum of squares in binary64 (C61 - C64) |
| `SpecFpDir.v` | accuracy hypotheses on loggamma and exp, complex values of pairs, nearest binary64 number, powers of two that are floats (C65 - C67, C87) |
| `SpecFpMany.v` | the same accuracy hypotheses on a wider range (C86, C88) |
| `SpecThree.v` | hypotheses on powers of 3 and on the overflow of exp, and which quadrature points overstep (C89); the documented shapes of the results of s2fft (C90) |
| `SpecFour.v` | hypothesis on powers of 4 (C91) |
| `SpecFpBack.v` | the transforms that the torch and SSHT backends use, as a library (C74 to C77) |
| `SpecFpJax.v` | the transforms that the JAX and precompute backends use, as a library (C71 to C73) |
| `SpecFpScat.v` | accuracy hypothesis on the modulus (C81) |
| `SpecStorage.v` | number of entries of a list of arrays (C82) |
| `SpecFpTrans.v` | summation in any order, values of complex128 arrays, closeness, transforms that invert each other up to an error (C69, C70) |
| `Demo.v` | a concrete transform library satisfying every contract used (DFT-like, all four equiangular samplings) |
| `*Facts.v`, `*Props.v` | proofs |
| `Properties*.v` | the theorems, each closed by `exact`, with Print Assumptions and a non-vacuity Example |

Numbers: Python ints are `Z`; floats are idealised as `R` except in `ModelFloat.v`, `ModelFloatDir.v`, `ModelFloatTrans.v`, `ModelFloatJax.v`, `ModelFloatBack.v`, `ModelFloatJaxFilt.v`, `ModelFloatLoop.v` and `ModelFloatScat.v`. Complex numbers are Coquelicot's `C`.
s2fft, jax.jit, torch and SSHT are not modelled: their entry points are fields of a record, and whatever is assumed about them is a
hypothesis in the theorem statement (never an axiom), with a concrete instance proved to satisfy it.

## Trusted base

* Coq 8.16.1's kernel, including its VM (`vm_compute` is used in the binary64 proofs and some examples).
* The axioms listed by Print Assumptions. Every theorem in `Properties*.v` is followed by Print Assumptions; over all of them the
  list is a subset of
  * `ClassicalDedekindReals.sig_forall_dec`, `ClassicalDedekindReals.sig_not_dec` (standard library reals),
  * `FunctionalExtensionality.functional_extensionality_dep` (standard library),
  * `Classical_Prop.classic` (standard library, through Coquelicot).
  No axiom is added, and none comes from Coquelicot or Flocq.
* The faithfulness of the hand-written model to the Python text. Each model definition cites file and lines.

## What is modelled

| code | where | extent |
|---|---|---|
| s2wav/samples.py | ModelSamples.v | every function: shape functions, band-limit functions, constructors, shape check |
| s2wav/filters.py | ModelFilters.v | every function: the three filter families, the quadratures, tiling direction, binomials, spin normalisation |
| s2wav/transforms/base.py | ModelTransforms.v | analysis, synthesis, analysis_looped, synthesis_looped |
| s2wav/transforms/wavelet.py, wavelet_c.py | ModelTransforms.v | analysis, synthesis, flm_to_analysis |
| s2wav/transforms/wavelet_precompute.py, wavelet_precompute_torch.py | ModelTransforms.v | analysis, synthesis, flm_to_analysis |
| s2wav/transforms/construct.py | ModelTransforms.v | generate_full_precomputes, generate_wigner_precomputes; a kernel is the tuple of arguments it is built from |
| j_max, tiling_integrand, part_scaling_fn, k_lam, L0_j, wav_j_bandlimit, scal_bandlimit, LN_j, filters_axisym, filters_axisym_vectorised | ModelFloat.v | once more in binary64 |
| binomial_coefficient, tiling_direction, spin_normalization, filters_directional, filters_directional_vectorised | ModelFloatDir.v | once more in binary64 |
| transforms/base.py analysis (scattering=False) and synthesis; f_wav_j, f_scal, construct_f, construct_flm, construct_flmn, wavelet_shape_check | ModelFloatTrans.v | once more in binary64 |
| transforms/wavelet.py and wavelet_precompute.py analysis and synthesis; construct.py (kernel lists), construct_flmn_jax | ModelFloatJax.v | once more in binary64 |
| transforms/wavelet_precompute_torch.py and wavelet_c.py analysis and synthesis; construct_flmn_torch; flm_to_analysis of the four backends | ModelFloatBack.v | once more in binary64 |
| filters.py k_lam_jax, filters_axisym_jax, tiling_direction_jax, filters_directional_jax; samples.py binomial_coefficient_jax | ModelFloatJaxFilt.v | once more in binary64 |
| transforms/base.py analysis_looped, synthesis_looped | ModelFloatLoop.v | once more in binary64 |
| transforms/base.py analysis with the scattering flag | ModelFloatScat.v | once more in binary64 |

Not modelled: s2fft, JAX, torch, SSHT and numpy themselves (only the operations used), printing and warnings, dtypes other than
"real" and "complex" (and binary64 in ModelFloat.v, ModelFloatDir.v, ModelFloatTrans.v, ModelFloatJax.v, ModelFloatBack.v, ModelFloatJaxFilt.v, ModelFloatLoop.v and ModelFloatScat.v), jit compilation, devices, documentation, notebooks, setup and tests.

## Simplifications

* Floats are reals (R) and complex floats are C except in ModelFloat.v, ModelFloatDir.v, ModelFloatTrans.v, ModelFloatJax.v, ModelFloatBack.v, ModelFloatJaxFilt.v, ModelFloatLoop.v and ModelFloatScat.v. A real operation that would give inf or nan in numpy is
  `Err NonFinite` in the numpy functions.
* JAX computes masked entries and discards them by `where`; the model computes them with Coq's total functions and discards them
  likewise.
* Exceptions are compared by class only. A size mismatch inside JAX is a TypeError in the spin reshape and a ValueError in einsum
  and slices, as in numpy. JAX's clamping of out-of-range static indices (J_max > j_max) is outside the theorems.
* JAX runs in 64-bit mode, as the tests set it. It converts a Python integer operand to int64 and raises OverflowError if it does not
  fit; this concerns `2**gamma` in tiling_direction_jax and is modelled (C83).
* With exact reals the range of floats is unbounded: numpy's overflow for N > 1024 is not modelled there. In binary64 it is: dividing by the Python
  integer `2**gamma` converts it to a float and raises OverflowError if it is too large (`pyfloat`, C87). The division by the
  normalisation in k_lam is a numpy one (`Err NonFinite` for a zero normalisation); when no panel at all is added up (at most two
  panels, or lam = 1) both operands are Python numbers and Python raises ZeroDivisionError. No theorem depends on the class.
* In binary64 the torch einsum multiplies by the filter values converted to complex128, as torch does for operands of one dtype.
* `using_torch` only selects the container of an allocation; it is not a parameter of the model.
* Python lists of arrays are lists; in-place updates of arrays are loops over array values.
* Binary64: log, exp and pow of the platform are parameters with stated properties; `s_arg**2.0` is the rounded product
  `s_arg*s_arg`; a power that overflows is inf and `math.ceil` of it raises OverflowError (Python raises it in the power already); the
  axisymmetric filters take the number of scales as an argument; the one NaN of Flocq's BinarySingleNaN stands for all NaNs;
  `2**gamma` is converted to binary64 (Python raises OverflowError from 2^1024 on, i.e. N > 1024); complex products are formed by
  components, with four rounded products; `(-1)**spin0` is 1 or -1; the vectorised directional filters raise for spin0 <> 0 before
  anything else (the exception class is the same); `np.pi**2` is the rounded product; einsum multiplies complex numbers by four
  rounded products without fused operations, converts real operands to complex, and adds up the real and the imaginary parts in
  the same arbitrary order, which may depend on the entry.

## s2fft contracts

The transform backends are records of arbitrary functions returning `res`. Theorems about what reaches or leaves s2fft need no
contract. The pixel-space theorems assume, as hypotheses: output shapes; exactness of inverse-then-forward on band-limited
coefficients (the sampling theorem); linearity; the symmetry of the transforms of real signals. `Demo.v` builds one library with all of
these properties for MW, MWSS, DH and GL, and the Examples next to the theorems use it. HEALPix transforms are not exact, so
theorems that need exactness say nothing about HEALPix. C85 assumes only that inverse-then-forward is off by a relative error eps and
bounds the error of the round trip; its Example is a library on 48 HEALPix pixels.

## Findings

Properties that describe behaviour contradicting the documentation: C16 (rows below J_min), C20, C24 (spin0), C27 (negative orders),
C34, C35 (kernels), C37 (one-pixel scaling coefficients), C42 (N > L), C45 (j_max one too large), C46 (lam = 5, 10),
C83 (JAX filters with 64 or more directions), C87 (numpy filters with more than 1024 directions).

Band-limits (C61) are `ceil(lam**j)` in binary64 and can be one below the exact value (lam = sqrt(17) rounded, scale 1: 17 instead of 18).
  It is harmless, because k_lam compares multipoles with the same rounded power.

## Tests against wrong programs

`seeded/LOG.jsonl` has one line per edited model: the edit, the property whose claim the edit breaks, the theorems that stopped
proving, and what was tightened. A theorem counts as failed when, after the edit, its proof depends on a lemma whose proof script
no longer goes through. Where the line has a `method` field the dependence was read off the names in the proof scripts instead of
rebuilding the theorem, and only part of the files may have been checked; `incomplete` lists checks that ran out of time.

## The repository's own tests and the theorems

What each test in /repo/tests asserts for a few sizes, and where the general statement is. "Exact" is over R and C, "binary64" with rounding.
Tests that compare with pys2let have no exact counterpart: pys2let is not modelled, and the theorems listed are about the same functions.

| test | exact | binary64 |
|---|---|---|
| test_axisym_admissibility | C10 | C62 |
| test_directional_admissibility | C14 | C66 |
| test_directional_tiling | C12 | C65 |
| test_axisym_vectorised | C16 | C79 |
| test_directional_vectorised, test_directional_torch | C17 | C79 |
| test_axisym_jax, test_directional_jax | C16, C17 with C18 | C79 with C78 |
| test_filter_exceptions | C08 | |
| test_looped_round_trip | C23, C25 | C80 |
| test_vectorised_round_trip | C23 | C70 |
| test_round_trip | C23 | C72, C75 |
| test_jax_synthesis_gradients, test_jax_analysis_gradients | C68 (slopes; automatic differentiation is not modelled) | |
| test_synthesis, test_synthesis_looped, test_synthesis_vectorised (against pys2let) | C22, C25, C29 | C69, C71, C74, C80 |
| test_analysis, test_analysis_looped, test_analysis_vectorised (against pys2let) | C22, C25, C29 | C69, C71, C74, C80 |
| test_flm_to_analysis (against pys2let) | C32 | C76 |

## Plan per property

| id | property | how |
|---|---|---|
| C01 | j_max is the least scale covering the band-limit | ModelSamples.j_max over extended reals; ln/powerRZ monotonicity. |
| C02 | Per-scale band-limits nest inside L and increase with the scale | ModelSamples.LN_j; ceil/min/powerRZ monotonicity. |
| C03 | The two finest scales live at full resolution | consequence of C01 + wav_j_bandlimit. |
| C04 | Per-scale directionality has the parity of N and never exceeds N | integer arithmetic on LN_j (lia with mod). |
| C05 | Array constructors and shape functions agree | constructors modelled as lists built by a range loop; lengths and entries by induction on the loop. |
| C06 | The shape check accepts exactly the right shapes | wavelet_shape_check modelled as a loop of assertions in the exception monad; iff by induction. |
| C07 | Analysis output is always accepted by synthesis | composition of transform model with an oracle record for s2fft whose only assumed fact is the output shape. |
| C08 | Filter constructors reject exactly the invalid scale ranges | closed forms of the filter loops (exact result, including Err branches). |
| C09 | Quadrature weights are positive and well defined | R-valued model of the quadrature loop incl. the membership guard; sign analysis. |
| C10 | Axisymmetric admissibility (partition of unity) | telescoping over scales; k has at most one fractional value per multipole; unimodality argument for the upper half octave. |
| C11 | Compact support: multiresolution truncation discards nothing | support lemmas on k composed with ceil/min band-limits. |
| C12 | Directional component is normalised | sum of binomials re-indexed by parity; binomial theorem. |
| C13 | Binomial coefficient by log-gamma rounding is exact | ln/exp/factorial; floor(1/2 + x). |
| C14 | Directional admissibility | C10 x C12. |
| C15 | Filters have the conjugate symmetry of a real-rotation-symmetric wavelet | binomial symmetry. |
| C16 | Looped and vectorised axisymmetric filters agree exactly on the scales in use | loop closed form vs roll/where closed form; refutation by generic witness. |
| C17 | Looped and vectorised directional filters agree on the scales in use (spin0 = 0) | closed forms. |
| C18 | JAX filters equal the numpy vectorised filters | closed forms; JAX functions modelled separately and proved equal. |
| C19 | Spin normalisation is the factorial ratio | product over range vs factorial ratio. |
| C20 | Spin-lowered filters: only the looped constructor works | reshape size mismatch modelled as ValueError; looped closed form. |
| C21 | Filters vanish below the spin cut-off | closed forms. |
| C22 | Exact reconstruction in harmonic space | C10/C14 + slice/einsum closed forms. |
| C23 | Pixel-space round trip | C22 under the sampling-theorem contract for the s2fft oracle record (a hypothesis in the statement, with a concrete instance shown). |
| C24 | Round trip with spin-lowered wavelets rescales | as C22 with spin weights; the bounds of C51 exclude a factor of one (`SpinProps.v`). |
| C25 | Looped and vectorised base transforms coincide | loop closed forms vs slice/einsum closed forms. |
| C26 | The reality shortcut computes the same coefficients | C15. |
| C27 | Reality in looped synthesis only gets the non-negative orders right | closed form of the two nested in-place updates. |
| C28 | Multiresolution and full-resolution transforms are equivalent | C11 + closed forms. |
| C29 | All backends perform the same harmonic decomposition | separate models of each backend; equality of the arrays passed to the (oracle) transforms. |
| C30 | Analysis and synthesis are linear | closed forms. |
| C31 | Energy is conserved (tight frame) | C14 + finite sum exchange. |
| C32 | flm_to_analysis agrees with analysis | equality of array programs. |
| C33 | Each scale of the precompute transforms uses a kernel built for its own size | kernels modelled as tagged construction records. |
| C34 | Truncated precompute analysis picks the wrong kernel | tag equality/inequality. |
| C35 | Precomputed spherical kernels are always spin 0 | tag equality/inequality. |
| C36 | Missing precomputes and unsupported sampling are rejected | exception monad, oracle never called. |
| C37 | One-pixel scaling coefficients: shape and value of the edge case | shape model. |
| C38 | Scaling functions nest | telescoping. |
| C39 | Filters do not depend on the band-limit | k depends on (j,l,lam) only. |
| C40 | Axisymmetric case N = 1 | closed form with N=1. |
| C41 | Synthesised coefficients stay in the harmonic triangle | closed forms. |
| C42 | Azimuthal slices are in range exactly for N <= L | Python slice semantics modelled (wrap, clip). |
| C43 | The mis-passed allocation arguments in base analysis are harmless | model keeps the wrong argument order; result independence proved. |
| C44 | Scattering flag takes moduli only | model keeps the flag. |
| C45 | j_max in floating point | error-model theorem over all log implementations; witness via Flocq rounding. |
| C46 | Quadrature in floating point can overflow | Flocq binary64 model of the loop with an exp oracle; vm_compute on one witness lifted over all oracles. |
| C47 | Vectorised quadrature equals looped quadrature | both quadratures modelled; equality of sums. |
| C48 | The generating function is the documented quadrature | closed form of the quadrature loop. |
| C49 | Axisymmetric filters are square roots of generating function differences | closed forms of the filter loops. |
| C50 | The generating function approximates the documented integrals | panel-by-panel trapezium error (second derivative of the bump), end panels, lower bound on the normaliser; Coquelicot RInt. |
| C51 | Admissibility and reconstruction up to the quadrature error | C50 with C10, C14, C22, C23. |
| C52 | The wavelets are steerable | vanishing sums of cosines over equispaced angles, with the parity and support of the directional component (C12). |
| C53 | Directional auto-correlation is a power of the cosine | binomial expansion of cos^g by induction on Pascal's triangle. |
| C54 | Synthesis is the adjoint of analysis | coefficient identities of C22, C24 read through the forward transforms, exchange of finite sums. |
| C55 | Analysis after synthesis is the orthogonal projection | C54, C31 and linearity. |
| C56 | Analysis and synthesis commute with rotations | both act degree by degree and leave m alone. |
| C57 | Wavelet coefficients are localised in frequency | supports of the filters (C08, C12) on top of C22. |
| C58 | Smooth fields are carried by the scaling map, oscillating ones by the wavelet maps | values of the filters outside their transition range. |
| C59 | Wavelet coefficients can be steered | C52 applied to the measured coefficients. |
| C60 | Every backend is the base transform over its own entry points | closed form of each backend, instantiated at the library made of its own transforms; C31 and C54 to C59 follow for all implementations. |
| C61 | Band-limits computed in floating point still cover the filters | comparisons of l with the same computed powers; rounding of a power across an integer. |
| C62 | Admissibility of the axisymmetric filters up to rounding | a column of k_lam is zeros, one entry, ones; error of one subtraction and one square root. |
| C63 | The default dilation never raises in floating point | at lam = 2 an abscissa in (1/2, 1) is a multiple of 2^-53, so 4t - 3 is exact and s^2 - 1 rounds to a non-zero number. |
| C64 | Accuracy of the filters in floating point at the default dilation | forward error analysis: 300 panels of 3 rounding units each over a normalisation bounded below; the bump exp(1/(s^2-1)) absorbs the error of its exponent. |
| C65 | Binomials and the directional component in floating point | exp(loggamma) is within 1/2 of the integer up to n = 40, so floor(1/2 + x) is exact; division by a power of two is exact and the square root is correctly rounded. |
| C66 | The directional filters in floating point | products of rounded factors, each relative error tracked; the sum over orders reduces to C65, the sum over scales to C62 and C64. |
| C67 | Spin-lowered filters in floating point | 2|s| rounded factors with partial products inside the range; the filters are the spin-0 ones times the rounded normalisation, the sign is exact. |
| C68 | Losses of the transforms are quadratic, with known gradients | linearity of every implementation at pixel level, for arbitrary pixel arrays; the derivative and the central difference of a quadratic polynomial. Automatic differentiation is not modelled. |
| C69 | Analysis and synthesis in floating point | each coefficient is one filter value times one weight times one harmonic coefficient; sums in any order by induction on the additions; sizes of the filters keep every product inside the range. |
| C70 | The round trip in floating point | C69 twice with the transforms' own error in between; Cauchy-Schwarz over the 2N-1 directions and the scales bounds the weight given to the error of the wavelet maps; C66 for the sum of squares. |
| C71 | JAX and precompute transforms in floating point | as C69; adding to a zero does not change a value; the kernel lists are those of the scales, the last two being equal. |
| C72 | Round trip of the JAX and precompute transforms in floating point | the round trip of C70 is proved for any transform given in closed form over a library; each backend is one, over its own entry points. |
| C73 | The backends compute the same coefficients in floating point | the closed forms of the three backends are compared. |
| C74 | Torch and SSHT transforms in floating point | as C71; the torch loop is the precompute one over its own entry points, the SSHT loop is brought to closed form. |
| C75 | Round trip of the torch and SSHT transforms in floating point | the round trip of C70 over the entry points of each. |
| C76 | Wavelet coefficients from harmonic coefficients in floating point | closed forms of the four flm_to_analysis, including a smaller top scale where the kernels allow it. |
| C77 | JAX, precompute, torch and SSHT compute identical coefficients in floating point | the closed forms of C71 and C74 to C76 are the same terms. |
| C78 | JAX filters equal the numpy filters bit for bit in floating point | the integers inside the square roots are exact for any accurate library (C65); the complex factor nu multiplies exactly. |
| C79 | looped and vectorised filters agree in floating point | closed forms of both (C62, C66) on the same table; both directional wavelets are near the same product (C66). |
| C80 | looped transforms in binary64: coefficients and round trip | closed forms of the loops by invariant; masked entries vanish by support; one rounding per term of the sum over scales and orders. |
| C81 | the scattering flag in floating point | simulation of the two loops (np.abs of the zero buffers is the same buffers); reverse triangle inequality. |
| C82 | storage of the wavelet maps | squares of the band-limits below the last two scales form a geometric series; induction over the scales. |
| C83 | JAX filters for many directions | the first multipole whose power of two does not fit is 63 or 64, by the parity of N; every earlier step succeeds. |
| C84 | dilations | the comparisons and the quotient l/lam^j are unchanged when both sides are scaled; in binary64 the quotient by a power of two is exact, so the same bits enter the same operations. |
| C85 | inexact transforms | synthesis is the adjoint of analysis (C31, C55), so both have norm at most sqrt(D); by linearity the error of the measured coefficients passes through synthesis. |
| C86 | many directions in binary64 | log-gammas below 2^13 give the binomial coefficient within 2^-31, and rounding to an integer makes it exact up to 2^31; whenever the component is returned the largest power of two is 2^1023, the binomials stay below it, and the only subnormal quotient is the exact 2^-1023; for the filters N <= 900 or L <= 900 keeps the products with the kernel normal; the rest as in C65 and C66. |
| C87 | numpy filters for many directions | 2^g is a float exactly for g < 1024; the first multipole whose power of two does not fit is 1024 or 1025, by the parity of N, and one of its orders 0 and 1 is in the mask. |
| C88 | JAX directional filters in binary64, whenever returned | the product with nu is exact for a strictly positive entry, so the JAX component has the bits of the numpy one with the same libraries; int64_powers implies the ranges of C86; kernels agree by C78; two results within 2^-30 of the same value are within 2^-28 of each other. |
| C89 | dilation 3 in binary64 | every quadrature point but the last lies strictly below 1 by the error bounds of the roundings; the last one is at most 1 + 2^-50, and at most 1 from a = 1/2 on; above 1 the argument of exp exceeds 710 and the sum becomes +inf; below 1 it is at most -2 and the term finite; at 1 the term is skipped. That no degree below 794 oversteps is checked by kernel computation over those degrees and scales; everything else is by inequalities for every l and j. |
| C90 | transforms with dilation 3 in binary64 | a product or a sum with an infinite or NaN operand is infinite or NaN, and so is the real part of a complex product with such a real part; the filters of C89 enter the coefficients of scale 6 through one product, and the summed coefficients through one product and further additions, so no signal and no later term can remove it. The looped filters skip entries whose directionality component is zero, so there the component is first shown not to vanish, from its accuracy. |
| C91 | dilation 4 in binary64 | l / 4^j is exact and a multiple of 2^-53, hence so is d = 1 - l / 4^j; with h the rounding of d / 300, i h is at most d + 2^-53, which is representable, so a + i h is at most 1 + 2^-53 and rounds to at most 1 (tie to even). Strictly inside the interval the argument of exp is at most -2, by monotonicity of rounding from its values at the two neighbours of the end points. The sums and the quotient by the normalisation are then bounded; all for every l and j, without computation over sizes. |
