{
 "C01": {
  "note": "Exact real arithmetic; floating point is C45."
 },
 "C02": {
  "note": "The no-gap part holds up to the largest scale (j+1 <= j_max), as stated."
 },
 "C05": {
  "note": "construct_f_jax / construct_f_torch return lists of empty lists in the code, so only their length is meaningful."
 },
 "C16": {
  "note": "Also refutes the documented equivalence of the two constructors for J_min > 0: the rows below J_min differ."
 },
 "C20": {
  "note": "Refutes the documented spin0 parameter of the vectorised and JAX constructors: they raise for every spin0 <> 0."
 },
 "C24": {
  "note": "Refutes exact reconstruction for spin0 <> 0; the exact factor is proved."
 },
 "C27": {
  "note": "The negative orders of the looped synthesis with reality are proved to be wrong in the stated way."
 },
 "C34": {
  "note": "Describes a defect of truncated precompute analysis exactly as it behaves."
 },
 "C35": {
  "note": "Describes a defect: spherical kernels are built for spin 0 whatever the field."
 },
 "C37": {
  "note": "The promised shape is refuted for MWSS, DH and HEALPix when the scaling band-limit is 1."
 },
 "C42": {
  "note": "Describes what the slices select for every N, including N > L where the vectorised transforms go wrong."
 },
 "C45": {
  "note": "The log of the platform is a parameter with a stated accuracy; the division is Flocq's correctly rounded one."
 },
 "C46": {
  "note": "The exp and pow of the platform are parameters; s_arg**2.0 is taken as the rounded product. Scale bases 5 and 10 refute what C09 and C10 prove over the reals."
 },
 "C23": {
  "note": "The sampling theorem of s2fft is a hypothesis; Demo.v has an instance that satisfies it for MW, MWSS, DH and GL. It is not satisfiable for HEALPix, whose transforms are not exact."
 },
 "C54": {
  "note": "The sampling theorem of s2fft is a hypothesis; maps are observed through the library's forward transforms. All implementations; for a backend the library is the one made of its own transforms (SpecSignal.lib_of), with the one-pixel scaling map as a condition where it applies."
 },
 "C55": {
  "note": "The sampling theorem of s2fft is a hypothesis; maps are observed through the library's forward transforms. All implementations; for a backend the library is the one made of its own transforms (SpecSignal.lib_of), with the one-pixel scaling map as a condition where it applies."
 },
 "C56": {
  "note": "The sampling theorem of s2fft is a hypothesis; maps are observed through the library's forward transforms. All implementations; for a backend the library is the one made of its own transforms (SpecSignal.lib_of), with the one-pixel scaling map as a condition where it applies. Holds for arbitrary matrices per degree, so no property of Wigner matrices is needed; spatial rotation enters through the coefficients."
 },
 "C57": {
  "note": "The sampling theorem of s2fft is a hypothesis; maps are observed through the library's forward transforms. All implementations; for a backend the library is the one made of its own transforms (SpecSignal.lib_of), with the one-pixel scaling map as a condition where it applies."
 },
 "C58": {
  "note": "The sampling theorem of s2fft is a hypothesis; maps are observed through the library's forward transforms. All implementations; for a backend the library is the one made of its own transforms (SpecSignal.lib_of), with the one-pixel scaling map as a condition where it applies."
 },
 "C59": {
  "note": "The sampling theorem of s2fft is a hypothesis; maps are observed through the library's forward transforms. All implementations; for a backend the library is the one made of its own transforms (SpecSignal.lib_of), with the one-pixel scaling map as a condition where it applies."
 },
 "C60": {
  "note": "Sampling theorems of the backend's own transforms are hypotheses; C54_example meets them for every backend, with a one-pixel scaling map. C29 has the comparison between backends whose transforms agree."
 },
 "C61": {
  "note": "exp and pow of the platform are parameters. Coverage is for the numpy axisymmetric versions (looped and vectorised); JAX is not modelled in binary64. Python raises OverflowError inside pow where the model raises it in ceil."
 },
 "C62": {
  "note": "Entries in [0,1] are a hypothesis of the first theorem; the second drops it for the vectorised version."
 },
 "C63": {
  "note": "lam = 2 only (the default; other bases can raise, C46). exp is arbitrary; pow is exact on powers of two, as IEEE libraries give."
 },
 "C64": {
  "note": "lam = 2, 300 quadrature points (the value the filters use). The accuracy of the platform exp on (-inf, -2] is a hypothesis (2^-53 absolute; half an ulp there is at most 2^-56). numpy versions; JAX and PyTorch filters are not modelled in binary64."
 },
 "C65": {
  "note": "Values need N <= 41: with more bits the rounding of exp(loggamma) may miss the integer. The accuracy of loggamma (2^-47 (1 + ln n!)) and exp (relative 2^-47) is a hypothesis; a library meeting it is constructed."
 },
 "C66": {
  "note": "Accuracy statements: spin0 = 0 (see C67 for the others) and N <= 41. The vectorised version raises for spin0 <> 0 (C20). numpy versions; for JAX see C78."
 },
 "C67": {
  "note": "Looped numpy version (the array versions raise, C20). Values need N <= 41 and the squared normalisation within 2^-800 .. 2^800."
 },
 "C68": {
  "note": "Exact arithmetic. The value of the derivative is proved; automatic differentiation by JAX and Torch is not modelled."
 },
 "C69": {
  "note": "Vectorised numpy version, lam = 2, spin0 = 0, scattering = False, N <= min(L, 41). No fused multiply-add inside a complex product."
 },
 "C70": {
  "note": "As C69. The accuracy d of s2fft's transforms is a hypothesis; the quadrature error E is the one of C51. The symmetry of real signals is not claimed for the final coefficients."
 },
 "C71": {
  "note": "As C69; jax_enable_x64 on, XLA taken to evaluate the operations one by one (no fusion into multiply-adds, no flushing of subnormals)."
 },
 "C72": {
  "note": "As C70 and C71. The precompute kernels are those of spin 0, so that the accuracy hypothesis is realistic for spin 0 only."
 },
 "C73": {
  "note": "As C71. Wavelet coefficients can differ in the sign of a zero: JAX adds to zeros, base.py assigns."
 },
 "C74": {
  "note": "As C69. Torch evaluates operation by operation; SSHT uses the multiresolution band-limits and samplings MW, MWSS, DH, GL. With reality set, SSHT reads the real part of the signal: the signal given is taken to be real."
 },
 "C75": {
  "note": "As C70 and C74. The precompute kernels are those of spin 0, so that the accuracy hypothesis for torch is realistic for spin 0 only."
 },
 "C76": {
  "note": "As C74. For precompute and torch the kernels of a smaller top scale are not those of the scales (the kernel list repeats its last entry), so only the default top scale is claimed."
 },
 "C77": {
  "note": "As C71 and C74; einsum is taken to add up in the same order in the backends compared. Agreement with the base transforms is C73."
 },
 "C78": {
  "note": "jax_enable_x64 on; XLA taken to evaluate the operations one by one, with correctly rounded division and square root. N <= 41 as in C65."
 },
 "C79": {
  "note": "N <= 41 for the wavelets, as in C65. The remaining difference, a value copied where the quadrature overshoots 1, is C64/C66's quadrature term."
 },
 "C80": {
  "note": "As C69 and C70. In the synthesis of a real signal only the orders m >= 0 are claimed, because the code gets the others wrong (C27); the same holds for the round trip of a real signal. The looped filters carry three quadrature errors instead of one."
 },
 "C81": {
  "note": "The modulus (np.abs of complex128, a hypot) is a parameter with a stated accuracy; a correctly rounded one is shown to meet it. The error of the pixel itself (e) is that of s2fft's inverse Wigner transform and is a hypothesis."
 },
 "C82": {
  "note": "Counts entries of the arrays construct_f allocates, not bytes. HEALPix maps have 12 nside^2 pixels at every scale, so no such bound holds for them."
 },
 "C83": {
  "note": "That JAX raises OverflowError when a Python integer operand exceeds int64 is a fact about JAX (64-bit mode, as the tests set it) and part of the model; in 32-bit mode the limit would be 2**31. The float overflow of numpy beyond N = 1024 is not modelled in exact arithmetic; C87 has it in binary64."
 },
 "C84": {
  "note": "The looped filters are covered where the generating function does not decrease with the scale (elsewhere the two loops differ, see C08). Below degree N the directional component depends on the degree, so the directional statement starts at N. In binary64 only lam = 2 is treated."
 },
 "C85": {
  "note": "The relative error of s2fft's HEALPix transforms is a hypothesis; no value of eps is claimed. The error is measured in the norm of coefficients, over the energies of C31. C85_base and C85_every state totality for the vectorised numpy transforms and the four backends; about the looped numpy transforms the theorems speak when they return."
 },
 "C86": {
  "note": "Beyond 41 directions log-gamma no longer determines the binomial coefficients exactly (C65, C66), so the error grows to 2^-30. The accuracy of scipy's loggamma and numpy's exp on this range is a hypothesis. spin0 = 0 only."
 },
 "C87": {
  "note": "That dividing a numpy float by a Python integer converts the integer to a float, with OverflowError if it is too large, is part of the model (pyfloat)."
 },
 "C88": {
  "note": "Extends C78 (bit-for-bit, N <= 41) to every size for which JAX does not overflow (C83). The accuracy of JAX's gammaln and exp is a hypothesis. spin0 = 0 only: JAX raises otherwise (C78)."
 },
 "C89": {
  "note": "A defect of the library: the integrand is evaluated beyond its support, where exp receives a huge positive argument. exp and the powers of 3 are hypotheses (accurate_exp, overflowing_exp, powers_of_three). J stands for the value of samples.j_max, as in the other binary64 claims."
 },
 "C90": {
  "note": "Consequence of C89 (a defect of the library). Says what is handed to s2fft or SSHT; what these do with non-finite coefficients is not modelled."
 },
 "C91": {
  "note": "Extends C46 (normalisation at lam = 4) to every entry and every filter. exp and the powers of 4 are hypotheses (accurate_exp, powers_of_four). J stands for the value of samples.j_max, as in the other binary64 claims."
 }
}