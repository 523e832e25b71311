{"id": "C01", "title": "j_max is the least scale covering the band-limit", "statement": "For a band-limit L >= 1 and a dilation lam > 1, j_max(L, lam) is the least integer J with lam^J >= L, i.e. lam^(J-1) < L <= lam^J; for 0 < lam < 1 and L >= 2 it is never positive, and for lam = 1, negative lam or L <= 0 the call fails instead of returning a scale (exact arithmetic).", "quantifier": "every integer L and every real lam", "why_tests_cant": "the covering inequality must hold for all (L, lam) pairs; tests sample L in {8,16} and lam in {2,3}", "anchors": ["s2wav/samples.py:j_max"]}
{"id": "C02", "title": "Per-scale band-limits nest inside L and increase with the scale", "statement": "With multiresolution on, the band-limits returned for scale j satisfy 0 <= L0j, 1 <= Lj <= L, Lj and L0j are non-decreasing in j, and scale j's upper band-limit is never below the lower band-limit of scale j+1 as long as j+1 <= j_max(L, lam); with multiresolution off they are (L, 0).", "quantifier": "every L >= 1, lam > 1, N and scale j >= 0", "why_tests_cant": "an inequality over all reals lam and all scales", "anchors": ["s2wav/samples.py:LN_j", "s2wav/samples.py:wav_j_bandlimit", "s2wav/samples.py:L0_j"]}
{"id": "C03", "title": "The two finest scales live at full resolution", "statement": "Scales j_max-1 and j_max (and every finer one) have band-limit exactly L, and identical directionality, hence identical pixel and Wigner array shapes; this is what makes the single shared precomputed kernel and the scattering buffer (allocated at scale j_max-1) large enough.", "quantifier": "every L >= 2, lam > 1, N >= 1, sampling and nside", "why_tests_cant": "must hold for every L/lam, including L an exact power of lam and non-integer lam", "anchors": ["s2wav/samples.py:wav_j_bandlimit", "s2wav/samples.py:construct_f", "s2wav/samples.py:construct_flmn", "s2wav/transforms/construct.py:generate_full_precomputes"]}
{"id": "C04", "title": "Per-scale directionality has the parity of N and never exceeds N", "statement": "The per-scale azimuthal band-limit Nj returned for N >= 1 satisfies min(N, Lj) <= Nj <= min(N, Lj + 1), 1 <= Nj, and Nj = N mod 2, so the stride-2 azimuthal loop of scale j visits exactly the orders where the filters can be non-zero.", "quantifier": "every L >= 1, lam > 1, N >= 1, j >= 0, both resolutions", "why_tests_cant": "parity/rounding argument over all integers", "anchors": ["s2wav/samples.py:LN_j"]}
{"id": "C05", "title": "Array constructors and shape functions agree", "statement": "For J_min <= j_max + 1, construct_f and construct_flmn return lists with n_wav_scales(L,N,J_min,lam) zero arrays, entry i having exactly the shape predicted for scale J_min+i; construct_flmn_jax and construct_flmn_torch return the same list; construct_f_jax and construct_f_torch return placeholder lists of the same length; an explicit J_max argument of the JAX/torch constructors replaces j_max, giving exactly the scales J_min..J_max; construct_flm has shape (Ls, 2Ls-1) where Ls is the band-limit used by f_scal.", "quantifier": "every L, N, J_min, lam, sampling, nside, multiresolution", "why_tests_cant": "index/shape agreement for all parameter combinations", "anchors": ["s2wav/samples.py:construct_f", "s2wav/samples.py:construct_flmn", "s2wav/samples.py:construct_f_jax", "s2wav/samples.py:construct_flmn_jax", "s2wav/samples.py:construct_f_torch", "s2wav/samples.py:construct_flmn_torch", "s2wav/samples.py:construct_flm", "s2wav/samples.py:n_wav_scales", "s2wav/samples.py:f_wav_j", "s2wav/samples.py:flmn_wav_j", "s2wav/samples.py:f_scal"]}
{"id": "C06", "title": "The shape check accepts exactly the right shapes", "statement": "wavelet_shape_check returns normally if and only if there are n_wav_scales arrays, the scaling array has shape f_scal(...) and array i has shape f_wav_j(J_min+i); on any other input it raises AssertionError.", "quantifier": "every list of arrays, every scaling array, every parameter setting with 0 <= J_min <= J", "why_tests_cant": "completeness direction (every wrong shape is rejected) is a universal statement", "anchors": ["s2wav/samples.py:wavelet_shape_check"]}
{"id": "C07", "title": "Analysis output is always accepted by synthesis", "statement": "Whenever the underlying harmonic transforms return arrays of their documented shapes, the wavelet and scaling coefficients returned by the base analysis (looped or vectorised) pass the shape check performed at the start of base synthesis with the same parameters.", "quantifier": "every signal, L >= 2, 1 <= N <= L, 0 <= J_min < J, lam > 1, spin, sampling, reality, resolution", "why_tests_cant": "shape agreement of producer and consumer for all parameters", "anchors": ["s2wav/transforms/base.py:analysis", "s2wav/transforms/base.py:analysis_looped", "s2wav/transforms/base.py:synthesis", "s2wav/samples.py:wavelet_shape_check"]}
{"id": "C08", "title": "Filter constructors reject exactly the invalid scale ranges", "statement": "filters_axisym, filters_axisym_vectorised, filters_axisym_jax (and the directional filters built on them, for spin0 = 0) raise ValueError if J_min < 0 or J_min >= j_max(L, lam), and otherwise return arrays of shape (J+1, L) and (L) without any other exception; only the JAX directional filters with 64 or more directions are excepted (C83); in particular the looped version never reads its 'previous value' variable before assignment.", "quantifier": "every L >= 1, lam > 1, J_min", "why_tests_cant": "absence of other exceptions for all inputs", "anchors": ["s2wav/filters.py:filters_axisym", "s2wav/filters.py:filters_axisym_vectorised", "s2wav/filters.py:filters_axisym_jax", "s2wav/filters.py:filters_directional"]}
{"id": "C09", "title": "Quadrature weights are positive and well defined", "statement": "In exact arithmetic the normalisation integral is strictly positive, the integral from a to 1 is non-negative for a in [1/lam, 1], strictly positive inside and zero at a = 1, and no panel touching an endpoint singularity is ever evaluated, so the generating function k_lambda is finite, k = 1 for l <= lam^(j-1), k = 0 for l >= lam^j and k > 0 for l < lam^j.", "quantifier": "every lam > 1, number of quadrature steps n >= 3, L, j, l", "why_tests_cant": "holds for all real lam and a; tests see finitely many", "anchors": ["s2wav/filters.py:part_scaling_fn", "s2wav/filters.py:tiling_integrand", "s2wav/filters.py:k_lam"]}
{"id": "C10", "title": "Axisymmetric admissibility (partition of unity)", "statement": "For every multipole l < L, Phi_l^2 + sum_{j=J_min..J} Psi_{j,l}^2 equals 1 if no generating function value k[j,l] exceeds one, and otherwise equals the one value k[j,l] > 1 (vectorised) or that value plus the square of the repeated filter value Psi_{j,l-1} (looped); it is exactly 1 for every l in the upper half of its octave (l/lam^i >= (1+1/lam)/2) and every exact power of lam.", "quantifier": "every L >= 1, lam > 1, 0 <= J_min < J, l < L, both implementations", "why_tests_cant": "an identity over all (L, lam, J_min, l)", "anchors": ["s2wav/filters.py:filters_axisym", "s2wav/filters.py:filters_axisym_vectorised", "s2wav/filters.py:k_lam"]}
{"id": "C11", "title": "Compact support: multiresolution truncation discards nothing", "statement": "The wavelet filter of scale j >= 1 vanishes for every l outside the open interval (lam^(j-1), lam^(j+1)), hence outside the range [L0j, Lj) that multiresolution keeps; scale 0 vanishes outside [1, Lj); the scaling filter vanishes for l >= lam^J_min, hence outside [0, Ls).", "quantifier": "every L, lam > 1, J_min, j, l, m, N, spin, spin0", "why_tests_cant": "for all l and j, including boundary multipoles equal to powers of lam", "anchors": ["s2wav/filters.py:filters_axisym_vectorised", "s2wav/filters.py:filters_directional", "s2wav/samples.py:LN_j", "s2wav/samples.py:scal_bandlimit"]}
{"id": "C12", "title": "Directional component is normalised", "statement": "The directionality component returned by tiling_direction satisfies sum_m |s_lm|^2 = 1 for every 1 <= l < L, vanishes at l = 0, and vanishes unless |m| <= min(l, N-1) and m = N-1 mod 2.", "quantifier": "every L >= 1, N >= 1, l, m", "why_tests_cant": "binomial identity for all N and l; tests cover N in {2,3}", "anchors": ["s2wav/filters.py:tiling_direction"]}
{"id": "C13", "title": "Binomial coefficient by log-gamma rounding is exact", "statement": "binomial_coefficient(n, k) returns exactly C(n, k) for 0 <= k <= n in exact arithmetic, and still does when the exponential is computed with any absolute error below 1/2.", "quantifier": "every n, k with 0 <= k <= n and every perturbation below 1/2", "why_tests_cant": "for all n and k", "anchors": ["s2wav/samples.py:binomial_coefficient", "s2wav/samples.py:binomial_coefficient_jax"]}
{"id": "C14", "title": "Directional admissibility", "statement": "For spin0 = 0 the directional filters satisfy 4pi/(2l+1) |phi_l|^2 + 8pi^2/(2l+1) sum_{j=J_min..J} sum_m |psi_{j,lm}|^2 = 1 (= max(1,k) without the quadrature condition) for every l with max(|spin|, 0) <= l < L, including l = 0 where only the scaling function contributes.", "quantifier": "every L, N >= 1, lam > 1, 0 <= J_min < J, spin, l", "why_tests_cant": "identity for all parameters; the repository's test skips l = 0 and samples 8 configurations", "anchors": ["s2wav/filters.py:filters_directional", "s2wav/filters.py:filters_directional_vectorised"]}
{"id": "C15", "title": "Filters have the conjugate symmetry of a real-rotation-symmetric wavelet", "statement": "psi_{j,l,-m} = (-1)^m conj(psi_{j,l,m}) for all j, l, m, for N odd (real filters) and N even (imaginary filters); this is what makes the reality shortcut correct.", "quantifier": "every L, N >= 1, lam > 1, J_min, spin, spin0, j, l, m", "why_tests_cant": "for all N and m", "anchors": ["s2wav/filters.py:tiling_direction", "s2wav/filters.py:filters_directional"]}
{"id": "C16", "title": "Looped and vectorised axisymmetric filters agree exactly on the scales in use", "statement": "filters_axisym and filters_axisym_vectorised return the same scaling filter and the same wavelet rows j >= J_min whenever no kernel difference is negative; for rows j < J_min the looped version returns zeros while the vectorised version does not (refuting the documented equivalence whenever J_min > 0).", "quantifier": "every L, lam > 1, 0 <= J_min < J", "why_tests_cant": "test uses J_min = 0 only", "anchors": ["s2wav/filters.py:filters_axisym", "s2wav/filters.py:filters_axisym_vectorised"]}
{"id": "C17", "title": "Looped and vectorised directional filters agree on the scales in use (spin0 = 0)", "statement": "For spin0 = 0, filters_directional and filters_directional_vectorised return the same scaling filter and the same wavelet rows j >= J_min (no-negative-difference condition), for every spin.", "quantifier": "every L, N >= 1, lam > 1, J_min, spin", "why_tests_cant": "extensional equality of arrays for all sizes", "anchors": ["s2wav/filters.py:filters_directional", "s2wav/filters.py:filters_directional_vectorised"]}
{"id": "C18", "title": "JAX filters equal the numpy vectorised filters", "statement": "For spin0 = 0 filters_axisym_jax, tiling_direction_jax, k_lam_jax and filters_directional_jax return the same arrays (or the same exception) as filters_axisym_vectorised, tiling_direction, k_lam and filters_directional_vectorised, as long as the powers 2**gamma in the directional component fit into an int64 (N < 64, or L < 64, or L = 64 and N odd; see C83), whatever values the log-gamma function takes at the masked non-integer arguments.", "quantifier": "every L >= 1, N >= 1, J_min, lam > 1, spin, and every log-gamma implementation correct at the positive integers", "why_tests_cant": "for all sizes", "anchors": ["s2wav/filters.py:filters_axisym_jax", "s2wav/filters.py:tiling_direction_jax", "s2wav/filters.py:k_lam_jax", "s2wav/filters.py:filters_directional_jax"]}
{"id": "C19", "title": "Spin normalisation is the factorial ratio", "statement": "_spin_normalization(l, s) = sqrt((l+s)!/(l-s)!) for every l >= |s|, for both signs of s, hence norm(l, -s) = 1/norm(l, s) and norm is finite and positive exactly on the multipoles the filters use.", "quantifier": "every l >= |s|, s", "why_tests_cant": "for all l and s", "anchors": ["s2wav/filters.py:_spin_normalization"]}
{"id": "C20", "title": "Spin-lowered filters: only the looped constructor works", "statement": "For every spin0 <> 0 the vectorised directional filters raise ValueError and the JAX ones TypeError (the spin factor array has 2|s| entries but is reshaped to 2|s|+1), whereas the looped constructor returns filters scaled by (-1)^spin0 times the spin normalisation.", "quantifier": "every L, N, J_min, lam, spin, spin0 <> 0", "why_tests_cant": "no test uses spin0 <> 0", "anchors": ["s2wav/filters.py:_spin_normalization_vectorised", "s2wav/filters.py:_spin_normalization_jax", "s2wav/filters.py:filters_directional_vectorised", "s2wav/filters.py:filters_directional"]}
{"id": "C21", "title": "Filters vanish below the spin cut-off", "statement": "All directional filters vanish for l < max(|spin|, |spin0|) and for |m| > l.", "quantifier": "every L, N, J_min, lam, spin, spin0, j, l, m", "why_tests_cant": "for all parameters", "anchors": ["s2wav/filters.py:filters_directional", "s2wav/filters.py:filters_directional_vectorised"]}
{"id": "C22", "title": "Exact reconstruction in harmonic space", "statement": "If admissibility holds at every multipole, decomposing harmonic coefficients into wavelet and scaling coefficients and summing them back returns the original coefficients exactly, for spin0 = 0, any spin, both resolutions; at a multipole l where the quadrature ratio k exceeds one the result is max(1,k) times the original coefficient.", "quantifier": "every L >= 2, 1 <= N <= L, lam > 1, 0 <= J_min < J, spin, resolution and every coefficient array", "why_tests_cant": "for all signals and parameters", "anchors": ["s2wav/transforms/base.py:analysis", "s2wav/transforms/base.py:synthesis"]}
{"id": "C23", "title": "Pixel-space round trip", "statement": "For harmonic transforms that invert exactly on band-limited signals, synthesis(analysis(f)) is the field whose multipole-l coefficients are those of f times the admissibility sum of the filters at l (scaling^2 plus the wavelets' squares, normalised); so it equals f for every band-limited f whenever that sum is 1 at every multipole >= |spin|. For base looped, base vectorised, JAX, C-backend, precompute and Torch transforms with matching kernels.", "quantifier": "every band-limited signal, every parameter setting accepted by the filters with 1 <= N <= L", "why_tests_cant": "for all signals; tests sample L = 8", "anchors": ["s2wav/transforms/base.py:analysis", "s2wav/transforms/base.py:synthesis", "s2wav/transforms/base.py:analysis_looped", "s2wav/transforms/base.py:synthesis_looped", "s2wav/transforms/wavelet.py:analysis", "s2wav/transforms/wavelet.py:synthesis", "s2wav/transforms/wavelet_c.py:analysis", "s2wav/transforms/wavelet_c.py:synthesis", "s2wav/transforms/wavelet_precompute.py:analysis", "s2wav/transforms/wavelet_precompute.py:synthesis", "s2wav/transforms/wavelet_precompute_torch.py:analysis", "s2wav/transforms/wavelet_precompute_torch.py:synthesis"]}
{"id": "C24", "title": "Round trip with spin-lowered wavelets rescales", "statement": "With spin0 <> 0 (looped transforms) synthesis after analysis multiplies the multipole-l coefficients by (l+spin0)!/(l-spin0)! times the admissibility sum of the axisymmetric filters (which is 1 where the generating function does not exceed one) for l >= max(|spin|,|spin0|), and annihilates lower multipoles; so no field except zero is reconstructed, for any spin0 <> 0, when the generating function does not exceed one or the quadrature error of C51 is below 1/3 (lam up to 17).", "quantifier": "every L, N, lam, J_min, spin, spin0, coefficient array", "why_tests_cant": "no test uses spin0 <> 0", "anchors": ["s2wav/transforms/base.py:analysis_looped", "s2wav/transforms/base.py:synthesis_looped", "s2wav/filters.py:filters_directional"]}
{"id": "C25", "title": "Looped and vectorised base transforms coincide", "statement": "analysis_looped and analysis return the same maps for every input whose coefficients vanish for |m| > l and l < |spin| (and, with the reality flag, are those of a real field), and synthesis_looped and synthesis return the same field, provided the generating function does not decrease from one scale to the next (otherwise the two filter constructions differ, see C16 and C49); with the reality flag on, synthesis also needs a spin-0 transform that ignores the negative orders.", "quantifier": "every signal and every set of maps, L >= 1, 1 <= N <= L, lam > 1, J_min, spin, resolution, reality flag, spin0 = 0", "why_tests_cant": "extensional equality over all inputs", "anchors": ["s2wav/transforms/base.py:analysis_looped", "s2wav/transforms/base.py:analysis", "s2wav/transforms/base.py:synthesis_looped", "s2wav/transforms/base.py:synthesis"]}
{"id": "C26", "title": "The reality shortcut computes the same coefficients", "statement": "For harmonic coefficients of a real signal (f_{l,-m} = (-1)^m conj f_{lm}), analysis_looped with reality on produces the same Wigner and scaling coefficients as with reality off, and these satisfy the conjugate symmetry required by the real inverse transforms.", "quantifier": "every conjugate-symmetric coefficient array and parameter setting", "why_tests_cant": "for all signals", "anchors": ["s2wav/transforms/base.py:analysis_looped"]}
{"id": "C27", "title": "Reality in looped synthesis only gets the non-negative orders right", "statement": "With reality on, synthesis_looped produces the correct harmonic coefficient for every m >= 0, but for m < 0, l < Ls, l >= |spin| it produces the wavelet part twice (wav + conj-mirrored(wav + scal)); the output is right only because the real inverse transform reads m >= 0 alone.", "quantifier": "every input and parameter setting", "why_tests_cant": "the tests cannot see the negative orders, the inverse transform hides them", "anchors": ["s2wav/transforms/base.py:synthesis_looped"]}
{"id": "C28", "title": "Multiresolution and full-resolution transforms are equivalent", "statement": "The Wigner coefficients computed at full resolution vanish outside the multiresolution ranges [L0j, Lj), |n| < Nj, |m| < Lj and agree with the multiresolution ones inside; the same holds for the scaling coefficients; hence synthesis gives the same signal from either representation.", "quantifier": "every signal, L >= 2, 1 <= N <= L, lam > 1, J_min, j", "why_tests_cant": "for all signals and parameters", "anchors": ["s2wav/transforms/base.py:analysis", "s2wav/transforms/base.py:synthesis", "s2wav/samples.py:LN_j", "s2wav/samples.py:scal_bandlimit"]}
{"id": "C29", "title": "All backends perform the same harmonic decomposition", "statement": "The JAX, C-backend, precompute-JAX and precompute-torch analyses apply the inverse Wigner transform to exactly the coefficient arrays that the base vectorised multiresolution analysis uses, and the four syntheses feed exactly the same summed coefficients to the final inverse transform, when given the base filters.", "quantifier": "every signal, filter pair and parameter setting", "why_tests_cant": "equality of array programs for all inputs", "anchors": ["s2wav/transforms/wavelet.py:analysis", "s2wav/transforms/wavelet.py:synthesis", "s2wav/transforms/wavelet_c.py:analysis", "s2wav/transforms/wavelet_c.py:synthesis", "s2wav/transforms/wavelet_precompute.py:analysis", "s2wav/transforms/wavelet_precompute.py:synthesis", "s2wav/transforms/wavelet_precompute_torch.py:analysis", "s2wav/transforms/wavelet_precompute_torch.py:synthesis"]}
{"id": "C30", "title": "Analysis and synthesis are linear", "statement": "Analysis of a*f + b*g is a*analysis(f) + b*analysis(g) and likewise for synthesis, for complex scalars at the level of harmonic, Wigner and scaling coefficients and, given linear spherical and Wigner transforms, at the level of the pixel arrays, with every implementation (both base ones, JAX, precompute, Torch, SSHT) and for fields and maps that need not be band-limited; when the reality flag is set the scalars are real.", "quantifier": "all signals, all complex scalars (real ones with the reality flag), all parameters", "why_tests_cant": "for all scalars and signals", "anchors": ["s2wav/transforms/base.py:analysis", "s2wav/transforms/base.py:synthesis", "s2wav/transforms/base.py:analysis_looped", "s2wav/transforms/base.py:synthesis_looped", "s2wav/transforms/wavelet.py:analysis", "s2wav/transforms/wavelet.py:synthesis", "s2wav/transforms/wavelet_precompute.py:analysis", "s2wav/transforms/wavelet_precompute.py:synthesis", "s2wav/transforms/wavelet_precompute_torch.py:analysis", "s2wav/transforms/wavelet_precompute_torch.py:synthesis", "s2wav/transforms/wavelet_c.py:analysis", "s2wav/transforms/wavelet_c.py:synthesis"]}
{"id": "C31", "title": "Energy is conserved (tight frame)", "statement": "The coefficients that the library's forward transforms read back from the maps returned by analysis satisfy: sum over scales, l, m, n of (2l+1)/(8pi^2) |W_j,lmn|^2 plus sum over l, m of |S_lm|^2 equals sum_l A_l sum_m |f_lm|^2, A_l being the admissibility sum of the filters; when admissibility holds (A_l = 1) this is sum_lm |f_lm|^2, the Parseval frame property of scale-discretised wavelets.", "quantifier": "every band-limited signal, L >= 1, 1 <= N <= L, lam > 1, J_min, spin, spin0, sampling, reality and multiresolution setting, every implementation (looped, vectorised, JAX, JAX precompute, PyTorch, C backend; the last four multiresolution only, the precompute kernels spin 0), every transform library satisfying the sampling theorem", "why_tests_cant": "for all signals", "anchors": ["s2wav/transforms/base.py:analysis", "s2wav/filters.py:filters_directional_vectorised", "s2wav/transforms/wavelet.py", "s2wav/transforms/wavelet_precompute.py", "s2wav/transforms/wavelet_precompute_torch.py", "s2wav/transforms/wavelet_c.py"]}
{"id": "C32", "title": "flm_to_analysis agrees with analysis", "statement": "For each backend, flm_to_analysis applied to the harmonic coefficients of f (J_max omitted or equal to j_max) returns exactly the wavelet part of analysis(f). With a smaller J_max the JAX and C versions, and the precompute version with _precomp_shift=False, return exactly the maps of the scales up to J_max, in the same order.", "quantifier": "every signal and parameter setting (analysis(f): spin as passed to the backend's forward transform); truncation: every coefficient array, filters of the documented shapes, J_min <= J_max <= j_max", "why_tests_cant": "for all inputs", "anchors": ["s2wav/transforms/wavelet.py:flm_to_analysis", "s2wav/transforms/wavelet_c.py:flm_to_analysis", "s2wav/transforms/wavelet_precompute.py:flm_to_analysis", "s2wav/transforms/wavelet_precompute_torch.py:flm_to_analysis"]}
{"id": "C33", "title": "Each scale of the precompute transforms uses a kernel built for its own size", "statement": "With precomputes from generate_full_precomputes, analysis and synthesis use at each scale j in [J_min, J] a Wigner kernel built for exactly (Lj, Nj) and the right direction, never indexing out of range; likewise generate_wigner_precomputes for the recursive transforms.", "quantifier": "every L, N, lam > 1, 0 <= J_min < J, sampling, nside, reality", "why_tests_cant": "index arithmetic for all parameters", "anchors": ["s2wav/transforms/construct.py:generate_full_precomputes", "s2wav/transforms/construct.py:generate_wigner_precomputes", "s2wav/transforms/wavelet_precompute.py:analysis", "s2wav/transforms/wavelet_precompute.py:synthesis", "s2wav/transforms/wavelet_precompute_torch.py:analysis", "s2wav/transforms/wavelet_precompute_torch.py:synthesis"]}
{"id": "C34", "title": "Truncated precompute analysis picks the wrong kernel", "statement": "With J_max < j_max, the default precompute flm_to_analysis (and the torch one, which has no switch) uses at scale J_max the kernel of scale J_max-1 (or the last kernel if J_max = J_min); for an integer lam that kernel has another band-limit unless both scales are below 2, and a backend that checks kernel sizes fails; with _precomp_shift=False the right kernel is used; with _precomp_shift=False and J_max = j_max it raises IndexError.", "quantifier": "every L, N, lam, J_min <= J_max < J", "why_tests_cant": "no test passes J_max", "anchors": ["s2wav/transforms/wavelet_precompute.py:flm_to_analysis", "s2wav/transforms/wavelet_precompute_torch.py:flm_to_analysis"]}
{"id": "C35", "title": "Precomputed spherical kernels are always spin 0", "statement": "generate_full_precomputes builds its two spherical kernels for spin 0 whatever the field; a precompute analysis or synthesis called with spin <> 0 therefore always pairs a spin-s transform with a spin-0 kernel, while for spin = 0 kernel and transform parameters (band-limit, spin, direction, reality, sampling) match exactly.", "quantifier": "every parameter setting", "why_tests_cant": "no test uses spin <> 0", "anchors": ["s2wav/transforms/construct.py:generate_full_precomputes", "s2wav/transforms/wavelet_precompute.py:analysis", "s2wav/transforms/wavelet_precompute.py:synthesis"]}
{"id": "C36", "title": "Missing precomputes and unsupported sampling are rejected", "statement": "The precompute transforms raise ValueError when precomputes are missing; the C backend analysis and synthesis raise ValueError for healpix and for any unknown sampling, before touching the data.", "quantifier": "every other argument value", "why_tests_cant": "for all other arguments", "anchors": ["s2wav/transforms/wavelet_precompute.py:analysis", "s2wav/transforms/wavelet_precompute.py:synthesis", "s2wav/transforms/wavelet_precompute.py:flm_to_analysis", "s2wav/transforms/wavelet_precompute_torch.py:analysis", "s2wav/transforms/wavelet_precompute_torch.py:synthesis", "s2wav/transforms/wavelet_precompute_torch.py:flm_to_analysis", "s2wav/transforms/wavelet_c.py:analysis", "s2wav/transforms/wavelet_c.py:synthesis"]}
{"id": "C37", "title": "One-pixel scaling coefficients: shape and value of the edge case", "statement": "When the scaling band-limit is 1 the JAX-family analyses return a (1,1) array holding f_00 * phi_0; this has the shape promised by f_scal for MW and GL sampling, but not for MWSS, DH or HEALPix (so the subsequent shape check/forward transform sees the wrong shape); when Ls > 1 the shape is always the promised one.", "quantifier": "every signal, filter and parameter setting with J_min = 0 or lam^J_min <= 1", "why_tests_cant": "tests never use J_min = 0 in transforms", "anchors": ["s2wav/transforms/wavelet.py:analysis", "s2wav/transforms/wavelet_c.py:analysis", "s2wav/transforms/wavelet_precompute.py:analysis", "s2wav/transforms/wavelet_precompute_torch.py:analysis", "s2wav/samples.py:f_scal"]}
{"id": "C38", "title": "Scaling functions nest", "statement": "The scaling filter at J_min absorbs exactly the scales below it: Phi^{J_min}_l^2 = Phi^{0}_l^2 + sum_{j<J_min} Psi_{j,l}^2 (no-negative-difference condition); and wavelet rows j >= J_min do not depend on J_min.", "quantifier": "every L, lam > 1, 0 <= J_min < J, l", "why_tests_cant": "for all parameters", "anchors": ["s2wav/filters.py:filters_axisym_vectorised", "s2wav/filters.py:filters_axisym"]}
{"id": "C39", "title": "Filters do not depend on the band-limit", "statement": "For L <= L' the filters built for L equal those built for L' at every common multipole l < L and every scale j <= j_max(L); all extra scales j > j_max(L) vanish for l < L.", "quantifier": "every L <= L', lam > 1, J_min, N, l, j, m", "why_tests_cant": "relates two runs, for all sizes", "anchors": ["s2wav/filters.py:k_lam", "s2wav/filters.py:filters_axisym_vectorised", "s2wav/filters.py:tiling_direction"]}
{"id": "C40", "title": "Axisymmetric case N = 1", "statement": "For N = 1 the directional filters are supported on m = 0, with psi_{j,l,0} = sqrt((2l+1)/(8pi^2)) Psi_{j,l} and are real; so analysis of each scale is a zonal filter.", "quantifier": "every L, lam, J_min, spin", "why_tests_cant": "for all sizes", "anchors": ["s2wav/filters.py:filters_directional_vectorised", "s2wav/filters.py:tiling_direction"]}
{"id": "C41", "title": "Synthesised coefficients stay in the harmonic triangle", "statement": "The harmonic coefficients handed to the final inverse transform vanish for |m| > l and for l < |spin|, whenever the forward transforms return coefficients with that property. This holds for synthesis and synthesis_looped as called: the map that they return is the inverse transform of such coefficients.", "quantifier": "every wavelet/scaling coefficient input", "why_tests_cant": "for all inputs", "anchors": ["s2wav/transforms/base.py:synthesis", "s2wav/transforms/base.py:synthesis_looped"]}
{"id": "C42", "title": "Azimuthal slices are in range exactly for N <= L", "statement": "For 1 <= N <= L the strided slices used by the vectorised transforms select exactly the orders n = -(Nj-1), -(Nj-3), ..., Nj-1 of the filters at each scale; for L < Nj <= L+2 the slice start wraps around to a single order of the wrong parity, at which the filter is zero, so the vectorised analysis silently returns zero wavelet coefficients there; for larger Nj it raises ValueError; the looped analysis stays correct for every N.", "quantifier": "every L, N, j", "why_tests_cant": "index arithmetic for all integers, including Python negative-index wrap-around", "anchors": ["s2wav/transforms/base.py:analysis", "s2wav/transforms/base.py:synthesis", "s2wav/transforms/wavelet.py:analysis", "s2wav/transforms/base.py:analysis_looped"]}
{"id": "C43", "title": "The mis-passed allocation arguments in base analysis are harmless", "statement": "The base vectorised analysis allocates its output list with the resolution flag in the nside position; the returned coefficients nevertheless do not depend on those allocated arrays and have the promised shapes.", "quantifier": "every signal and parameter setting", "why_tests_cant": "for all parameters", "anchors": ["s2wav/transforms/base.py:analysis", "s2wav/samples.py:construct_f"]}
{"id": "C44", "title": "Scattering flag takes moduli only", "statement": "base analysis with scattering on returns, scale by scale, exactly the modulus of what it returns with scattering off, and the same scaling coefficients.", "quantifier": "every signal and parameter setting", "why_tests_cant": "for all inputs", "anchors": ["s2wav/transforms/base.py:analysis"]}
{"id": "C45", "title": "j_max in floating point", "statement": "With logarithms accurate to a relative 2^-52 and a correctly rounded division, the computed scale J' is within one of the exact J for every lam in [1+2^-43, 2^1024] and L <= 2^53; for integer lam >= 2 and L <= 2^43 it satisfies J <= J' <= J+1, with J' = J unless L = lam^J, and lam^J' >= L always; an added scale is empty (its generating rows are 1); and the +1 does occur: for L = 125, lam = 5 correctly rounded binary64 gives 4, not 3.", "quantifier": "every lam and L in the stated ranges, every log implementation within the error bound", "why_tests_cant": "floating-point corner cases appear at isolated inputs (125, 216)", "anchors": ["s2wav/samples.py:j_max"]}
{"id": "C46", "title": "Quadrature in floating point can overflow or fail", "statement": "In binary64 the last quadrature abscissa a + n*h need not equal 1.0. For lam = 5 it is 1 + 2^-52 when computing the normalisation, the guard does not skip the panel, and the normalisation is +inf, so whatever k_lam(L, 5) returns has no entry strictly between 0 and 1: every entry is 1, 0 or NaN. For lam = 10 and L >= 12, k_lam raises ZeroDivisionError. For lam = 2, 3, 4 all abscissae of the normalisation stay inside and it is finite (for the other entries see C89 at lam = 3 and C91 at lam = 4).", "quantifier": "every L and number of scales, every binary64 exp that is never NaN or negative and overflows to infinity above 710 (lam = 5), every exp at all (lam = 10), every exp within [0,1] on negative arguments (lam = 2, 3, 4); the default of 300 panels", "why_tests_cant": "needs the one unlucky lam; tests use lam 2 and 3", "anchors": ["s2wav/filters.py:part_scaling_fn", "s2wav/filters.py:tiling_integrand", "s2wav/filters.py:k_lam"]}
{"id": "C47", "title": "Vectorised quadrature equals looped quadrature", "statement": "_part_scaling_fn_jax(a, b, n, lam) = part_scaling_fn(a, b, n, lam) in exact arithmetic for all a, b with a, b in [1/lam, 1].", "quantifier": "every lam > 1, n >= 1, 1/lam <= a <= b <= 1", "why_tests_cant": "for all reals", "anchors": ["s2wav/filters.py:_part_scaling_fn_jax", "s2wav/filters.py:part_scaling_fn"]}
{"id": "C48", "title": "The generating function is the documented quadrature", "statement": "For lam^(j-1) < l < lam^j the generating function value returned by k_lam is the ratio of two n-panel trapezium sums of the integrand exp(-2/(1-s(t)^2))/t, s(t) = 2 lam/(lam-1) (t - 1/lam) - 1: over [l/lam^j, 1] without its last panel, and over [1/lam, 1] without its first and last panels.", "quantifier": "every L >= 1, lam > 1, n >= 3, j, l", "why_tests_cant": "Tests compare implementations of the same formula against each other for a few L; they cannot fix the formula for all lam and all multipoles.", "anchors": ["s2wav/filters.py:k_lam", "s2wav/filters.py:part_scaling_fn", "s2wav/filters.py:tiling_integrand"]}
{"id": "C49", "title": "Axisymmetric filters are square roots of generating function differences", "statement": "filters_axisym_vectorised returns Phi_l = sqrt(k[J_min,l]) and Psi_{j,l} = sqrt(max(0, k[j+1,l]-k[j,l])) with k = k_lam(L, lam, 300); filters_axisym returns the same Phi, zero rows below J_min, sqrt(k[j+1,l]-k[j,l]) where that difference is not negative and otherwise a copy of Psi_{j,l-1}.", "quantifier": "every L >= 1, lam > 1, 0 <= J_min < J, j, l", "why_tests_cant": "Tests only check that implementations agree numerically on a few settings where no difference is negative.", "anchors": ["s2wav/filters.py:filters_axisym", "s2wav/filters.py:filters_axisym_vectorised", "s2wav/filters.py:k_lam"]}
{"id": "C50", "title": "The generating function approximates the documented integrals", "statement": "With quad_iters = n >= 12, every entry k[j,l] returned by k_lam differs from the documented ratio of integrals k_lam(l/lam^j) by at most 4 lam ((lam+3)^2+21)/n^2, and so converges to it as n grows, uniformly in L, j and l. Consequently, with the 300 iterations used by the filter constructors, Phi_l^2 and Psi_{j,l}^2 of both axisymmetric constructors are within that error (twice it for Psi) of the documented k(l/lam^J_min) and k(l/lam^(j+1)) - k(l/lam^j).", "quantifier": "every L >= 1, lam > 1, n >= 12, 0 <= J_min < J, j, l (exact arithmetic)", "why_tests_cant": "Tests compare the implementations with stored numbers or with each other; the distance to an integral, for every lam and multipole, is out of their reach.", "anchors": ["s2wav/filters.py:k_lam", "s2wav/filters.py:part_scaling_fn", "s2wav/filters.py:tiling_integrand", "s2wav/filters.py:filters_axisym", "s2wav/filters.py:filters_axisym_vectorised"]}
{"id": "C51", "title": "Admissibility and reconstruction hold up to the quadrature error at every multipole", "statement": "Also where the tiling is not exact (lower half of an octave), the squared filters of both axisymmetric constructors sum to a value in [1, 1+3e] (1+e for the vectorised one), e = 4 lam ((lam+3)^2+21)/300^2 (below 1/200 for lam = 2); the same holds for the directional filters with spin0 = 0, and synthesis after analysis (looped, vectorised, JAX, precompute) returns a field whose harmonic coefficients differ from those of the input by a relative error of at most 3e.", "quantifier": "every L >= 1, 1 <= N <= L, lam > 1, 0 <= J_min < J, spin, l, m, every band-limited field, every transform library satisfying the sampling theorem (exact arithmetic)", "why_tests_cant": "Round-trip tests use lam = 2 or 3 and a few band-limits with a fixed tolerance; they bound neither other lam nor other multipoles.", "anchors": ["s2wav/filters.py:filters_axisym", "s2wav/filters.py:filters_directional", "s2wav/filters.py:filters_directional_vectorised", "s2wav/transforms/base.py:analysis", "s2wav/transforms/base.py:synthesis"]}
{"id": "C52", "title": "The wavelets are steerable", "statement": "A directional wavelet rotated about the z axis by any angle g equals the sum over k = 0..N-1 of a weight z(g - k pi/N) times the wavelet rotated by k pi/N, where z(x) is the mean of cos(n x) over n = -(N-1), -(N-3), ..., N-1; the weights depend only on N and g, not on scale, degree or order.", "quantifier": "every L >= 1, N >= 1, lam > 1, J_min, spin, spin0 accepted by any of the three directional constructors, every angle, scale, l and m", "why_tests_cant": "Steerability is an identity over a continuum of angles; no test rotates a filter.", "anchors": ["s2wav/filters.py:filters_directional", "s2wav/filters.py:filters_directional_vectorised", "s2wav/filters.py:filters_directional_jax", "s2wav/filters.py:tiling_direction"]}
{"id": "C53", "title": "Directional auto-correlation is a power of the cosine", "statement": "For every l >= 1 the sum over m of |s_lm|^2 cos(m x) of the array returned by tiling_direction equals cos(x)^g with g = min(N-1, l) lowered to the parity of N-1, and the inner product at degree l of a directional wavelet with itself rotated by x equals cos(x)^g times its energy at that degree: the design criterion of the directional component.", "quantifier": "every L >= 1, N >= 1, lam > 1, spin, spin0, scale, 1 <= l < L, every angle x", "why_tests_cant": "The tests compare tiling_direction with stored values or normalisation at a few N; they do not vary an angle, and a wrong binomial weight can keep the norm.", "anchors": ["s2wav/filters.py:tiling_direction", "s2wav/filters.py:filters_directional"]}
{"id": "C54", "title": "Synthesis is the adjoint of analysis", "statement": "For every field f and every set of wavelet and scaling maps v that can be measured with the forward transforms, the inner product of the coefficients of analysis(f) with those of v (weight (2l+1)/(8 pi^2) on SO(3)) equals the inner product of the harmonic coefficients of f with those of synthesis(v), whether or not the filters are admissible; both sides exist, and every choice of coefficients of the right band-limits is measured from some maps that synthesis accepts.", "quantifier": "every band-limited field, L >= 1, 1 <= N <= L, lam > 1, J_min, spin, spin0, sampling, reality and multiresolution setting, every implementation (looped, vectorised, JAX, JAX precompute, PyTorch, C backend; the last four multiresolution only, the precompute kernels spin 0), every transform library satisfying the sampling theorem (exact arithmetic)", "why_tests_cant": "Tests only synthesise maps that analysis produced; adjointness concerns all pairs of a field and an unrelated set of maps.", "anchors": ["s2wav/transforms/base.py:analysis", "s2wav/transforms/base.py:analysis_looped", "s2wav/transforms/base.py:synthesis", "s2wav/transforms/base.py:synthesis_looped", "s2wav/filters.py:filters_directional_vectorised", "s2wav/filters.py:filters_directional", "s2wav/transforms/wavelet.py", "s2wav/transforms/wavelet_precompute.py", "s2wav/transforms/wavelet_precompute_torch.py", "s2wav/transforms/wavelet_c.py"]}
{"id": "C55", "title": "Analysis after synthesis is the orthogonal projection", "statement": "With admissible filters, synthesising arbitrary maps and analysing the result gives the orthogonal projection onto the maps that analysis can produce: the residual is orthogonal to the analysis of every field, the energy of the maps is the energy of the synthesised field plus the energy of the residual, so synthesis never increases energy.", "quantifier": "every band-limited field, L >= 1, 1 <= N <= L, lam > 1, J_min, spin, spin0, sampling, reality and multiresolution setting, every implementation (looped, vectorised, JAX, JAX precompute, PyTorch, C backend; the last four multiresolution only, the precompute kernels spin 0), every transform library satisfying the sampling theorem (exact arithmetic)", "why_tests_cant": "Needs maps outside the range of analysis; no test builds any, and orthogonality is against every field.", "anchors": ["s2wav/transforms/base.py:analysis", "s2wav/transforms/base.py:analysis_looped", "s2wav/transforms/base.py:synthesis", "s2wav/transforms/base.py:synthesis_looped", "s2wav/filters.py:filters_directional_vectorised", "s2wav/filters.py:filters_directional", "s2wav/transforms/wavelet.py", "s2wav/transforms/wavelet_precompute.py", "s2wav/transforms/wavelet_precompute_torch.py", "s2wav/transforms/wavelet_c.py"]}
{"id": "C56", "title": "Analysis and synthesis commute with rotations", "statement": "For any family of matrices acting on the orders m of each degree l (Wigner matrices of a rotation in particular), analysing the transformed field gives the transformed wavelet and scaling coefficients of the original field, and synthesising transformed maps gives the transformed field.", "quantifier": "every band-limited field, L >= 1, 1 <= N <= L, lam > 1, J_min, spin, spin0, sampling, reality and multiresolution setting, every implementation (looped, vectorised, JAX, JAX precompute, PyTorch, C backend; the last four multiresolution only, the precompute kernels spin 0), every transform library satisfying the sampling theorem (exact arithmetic)", "why_tests_cant": "Rotations form a continuum and the suite never rotates a field.", "anchors": ["s2wav/transforms/base.py:analysis", "s2wav/transforms/base.py:analysis_looped", "s2wav/transforms/base.py:synthesis", "s2wav/transforms/base.py:synthesis_looped", "s2wav/transforms/wavelet.py", "s2wav/transforms/wavelet_precompute.py", "s2wav/transforms/wavelet_precompute_torch.py", "s2wav/transforms/wavelet_c.py"]}
{"id": "C57", "title": "Wavelet coefficients are localised in frequency", "statement": "A nonzero wavelet coefficient at scale j, degree l, orders m, n implies lam^(j-1) < l < lam^(j+1), max(1, |spin|, |m|, |n|) <= l < L, |n| < N, n of the parity of N-1, and a nonzero coefficient (l, m) of the analysed field; a nonzero scaling coefficient implies l < lam^J_min and the same for the field. At each degree at most two consecutive scales carry coefficients.", "quantifier": "every band-limited field, L >= 1, 1 <= N <= L, lam > 1, J_min, spin, spin0, sampling, reality and multiresolution setting, every implementation (looped, vectorised, JAX, JAX precompute, PyTorch, C backend; the last four multiresolution only, the precompute kernels spin 0), every transform library satisfying the sampling theorem (exact arithmetic)", "why_tests_cant": "Statement about zeros for all fields and all parameters; the suite only checks round trips.", "anchors": ["s2wav/transforms/base.py:analysis", "s2wav/transforms/base.py:analysis_looped", "s2wav/filters.py:filters_directional_vectorised", "s2wav/filters.py:filters_directional", "s2wav/transforms/wavelet.py", "s2wav/transforms/wavelet_precompute.py", "s2wav/transforms/wavelet_precompute_torch.py", "s2wav/transforms/wavelet_c.py"]}
{"id": "C58", "title": "Smooth fields are carried by the scaling map, oscillating ones by the wavelet maps", "statement": "A field with no coefficients above degree lam^(J_min-1) has zero wavelet coefficients and its scaling coefficients equal its own (spin0 = 0); a field with no coefficients below degree lam^J_min has a zero scaling map.", "quantifier": "every band-limited field, L >= 1, 1 <= N <= L, lam > 1, J_min, spin, spin0, sampling, reality and multiresolution setting, every implementation (looped, vectorised, JAX, JAX precompute, PyTorch, C backend; the last four multiresolution only, the precompute kernels spin 0), every transform library satisfying the sampling theorem (exact arithmetic)", "why_tests_cant": "Ranges over all fields in a frequency range and all J_min.", "anchors": ["s2wav/transforms/base.py:analysis", "s2wav/transforms/base.py:analysis_looped", "s2wav/filters.py:filters_directional_vectorised", "s2wav/filters.py:filters_directional", "s2wav/transforms/wavelet.py", "s2wav/transforms/wavelet_precompute.py", "s2wav/transforms/wavelet_precompute_torch.py", "s2wav/transforms/wavelet_c.py"]}
{"id": "C59", "title": "Wavelet coefficients can be steered", "statement": "The wavelet coefficients of a field at any orientation g are the combination, with weights z(g - k pi/N), of those at the N orientations k pi/N, z being the mean of cos(n x) over n = -(N-1), -(N-3), ..., N-1: N orientations determine all of them, at the (possibly reduced) azimuthal band-limit of each scale.", "quantifier": "every band-limited field, L >= 1, 1 <= N <= L, lam > 1, J_min, spin, spin0, sampling, reality and multiresolution setting, every implementation (looped, vectorised, JAX, JAX precompute, PyTorch, C backend; the last four multiresolution only, the precompute kernels spin 0), every transform library satisfying the sampling theorem (exact arithmetic)", "why_tests_cant": "Identity over a continuum of orientations.", "anchors": ["s2wav/transforms/base.py:analysis", "s2wav/transforms/base.py:analysis_looped", "s2wav/filters.py:filters_directional_vectorised", "s2wav/filters.py:filters_directional", "s2wav/transforms/wavelet.py", "s2wav/transforms/wavelet_precompute.py", "s2wav/transforms/wavelet_precompute_torch.py", "s2wav/transforms/wavelet_c.py"]}
{"id": "C60", "title": "Every backend is the base transform over its own entry points", "statement": "The analysis (synthesis) of each backend - JAX, JAX precompute, PyTorch, SSHT C - called with kernels from the matching generator returns exactly what the vectorised base analysis (synthesis) returns when its spherical and Wigner transforms are replaced by that backend's own; the sampling theorems for a backend's transforms are the ones the base transform then needs, and every band-limited field and every decomposition is accepted. No agreement between different backends' transforms is assumed.", "quantifier": "every backend, every band-limited field and every set of measurable maps, L >= 1, 1 <= N <= L, lam > 1, J_min, spin (0 for the precomputed kernels), sampling, reality; a library that writes the one-pixel scaling map as the backends do when the scaling band-limit is 1", "why_tests_cant": "the suite compares backends on two or three sizes and only through libraries that agree with each other", "anchors": ["s2wav/transforms/wavelet.py", "s2wav/transforms/wavelet_precompute.py", "s2wav/transforms/wavelet_precompute_torch.py", "s2wav/transforms/wavelet_c.py", "s2wav/transforms/construct.py"]}
{"id": "C61", "title": "Band-limits computed in floating point still cover the filters", "statement": "In binary64, every multipole at which the computed axisymmetric wavelet of scale j is non-zero lies between the computed lower band-limit and below the computed band-limit of that scale, and every multipole at which the computed scaling function is non-zero lies below the computed scaling band-limit, so multiresolution sizes lose nothing even though lam**j is rounded. The computed band-limits themselves equal the exact ones or are one too small, the latter only when lam**j rounds down to an integer; this does occur (lam = sqrt(17) rounded). For integer lam the sizes are exact.", "quantifier": "every L <= 2^53, every number of scales, every exp with a positive normalisation, every pow whose values are finite, positive and strictly increasing (coverage) or within one rounding of the exact power (sizes), both numpy axisymmetric implementations", "why_tests_cant": "tests use lam 2 and 3 and sizes of a few dozen; rounding differs per lam and j", "anchors": ["s2wav/samples.py:L0_j", "s2wav/samples.py:wav_j_bandlimit", "s2wav/samples.py:scal_bandlimit", "s2wav/samples.py:LN_j", "s2wav/filters.py:filters_axisym", "s2wav/filters.py:filters_axisym_vectorised"]}
{"id": "C62", "title": "Admissibility of the axisymmetric filters up to rounding", "statement": "In binary64, scaling^2 + sum over scales of wavelet^2 differs from 1 by at most 2^-51 at every multipole, provided the computed generating function stays within [0,1]; the bound does not grow with the number of scales. If an entry exceeds 1, the vectorised filters sum to that entry (up to a relative 2^-51) instead: the only source of a larger defect is the quadrature.", "quantifier": "every L <= 2^53, J_min, lam, every exp with a positive normalisation, every pow with increasing values reaching L, every multipole; both numpy axisymmetric implementations", "why_tests_cant": "tests compare with a tolerance of 1e-10 or so at a few sizes, far above 2^-51 and without a bound in the number of scales", "anchors": ["s2wav/filters.py:filters_axisym", "s2wav/filters.py:filters_axisym_vectorised", "s2wav/filters.py:k_lam"]}
{"id": "C63", "title": "The default dilation never raises in floating point", "statement": "With lam = 2 (the default) in binary64, the generating function and both numpy axisymmetric filter constructions return their arrays, of the documented shapes, and never raise, whatever the platform's exp returns: no abscissa is 0 where it is divided by, every exponent 1/(s^2-1) has a non-zero denominator at every abscissa strictly inside the support, and the normalisation is computed.", "quantifier": "every 0 <= L <= 2^53, every J, every J_min in range, every exp, every pow exact on the powers 2^-1 .. 2^(J+1)", "why_tests_cant": "one rounded abscissa hitting the edge of the support divides by zero (C46 shows lam = 5 and others fail); each L has its own abscissas", "anchors": ["s2wav/filters.py:k_lam", "s2wav/filters.py:part_scaling_fn", "s2wav/filters.py:tiling_integrand", "s2wav/filters.py:filters_axisym", "s2wav/filters.py:filters_axisym_vectorised"]}
{"id": "C64", "title": "Accuracy of the filters in floating point at the default dilation", "statement": "With lam = 2 in binary64 and a platform exp accurate to 2^-53 absolutely, every entry of the computed generating function is within 2^-35 of the value in exact arithmetic, hence within the quadrature error plus 2^-35 of the documented ratio of integrals; the squared scaling function within the same bound, the squared wavelets within twice the quadrature error plus 2^-34 (vectorised) or 2^-33 (looped) of the documented differences. The squares sum to at least 1 - 2^-51 and at most 1 + quadrature error + 2^-34 (vectorised) or 1 + 3 x quadrature error + 2^-32 (looped), with no assumption on the computed entries.", "quantifier": "every 1 <= L <= 2^53, every J_min in range, every multipole and scale, every exp within 2^-53 of the exponential on (-inf, -2], every pow exact on the powers 2^-1 .. 2^(J+1)", "why_tests_cant": "compares finite-precision output with the continuum definition at every L; tests compare implementations with each other", "anchors": ["s2wav/filters.py:k_lam", "s2wav/filters.py:part_scaling_fn", "s2wav/filters.py:filters_axisym", "s2wav/filters.py:filters_axisym_vectorised"]}
{"id": "C65", "title": "Binomials and the directional component in floating point", "statement": "In binary64, binomial coefficients of n <= 40 are exact, and C(63,31) cannot be, whatever the platform. The directional component is returned, whatever loggamma and exp do, for every L and N whose powers of two are floats (N <= 1024 or L <= 1024; see C87), is zero outside its band and parity, and for N <= 41 every entry is the binary64 number nearest to the exact one; hence it is exactly even in the order and its squares sum to 1 within 2^-50 at every multipole >= 1.", "quantifier": "every L >= 1, every N (1..41 for the values), every multipole and order, every loggamma with an error of at most 2^-47 (1 + ln n!) and exp with a relative error of at most 2^-47", "why_tests_cant": "tests compare with a tolerance; exactness after rounding at every degree and order, and the failure beyond 53 bits, are not visible that way", "anchors": ["s2wav/samples.py:binomial_coefficient", "s2wav/filters.py:tiling_direction"]}
{"id": "C66", "title": "The directional filters in floating point", "statement": "In binary64 the directional filters are returned whenever the axisymmetric ones are (and always for lam = 2), as long as the powers of two are floats (see C87), with the documented shapes. They are zero below max(|spin|,|spin0|) and outside the azimuthal band-limit, and exactly even in the order. For the scalar reference spin each scaling (wavelet) coefficient is within a relative 2^-50 (2^-49) of the exact product of weight, computed kernel and exact component; the normalised squares sum to the sum of squares of the axisymmetric filters within a relative 2^-48. For lam = 2 every coefficient is finite and the sum is between 1 - 2^-47 and 1 + quadrature error + 2^-33 (vectorised) or 1 + 3 x quadrature error + 2^-31 (looped).", "quantifier": "every 1 <= L <= 2^52, every J_min, lam, spin, spin0, N (1..41 for values), every multipole, order and scale, every exp, pow and loggamma with the stated accuracy; both numpy directional implementations", "why_tests_cant": "tests compare the implementations with each other at a few sizes; this bounds both against the exact definition at every size, including finiteness", "anchors": ["s2wav/filters.py:filters_directional", "s2wav/filters.py:filters_directional_vectorised", "s2wav/filters.py:_spin_normalization", "s2wav/filters.py:tiling_direction"]}
{"id": "C67", "title": "Spin-lowered filters in floating point", "statement": "In binary64 the normalisation of spin-lowered wavelets is finite and within a relative (|s|+2) 2^-51 of sqrt((l+s)!/(l-s)!) whenever that ratio is between 2^-800 and 2^800, which holds for |s| <= 7 at every multipole up to 2^52; outside it degenerates (spin 100 at multipole 100 gives 0 or inf). The filters of a reference spin are then within a relative (|s|+9) 2^-51 of (-1)^s times that normalisation times the filters of spin 0, every coefficient is finite for lam = 2, and the normalised squares sum to (l+s)!/(l-s)! times the axisymmetric sum within a relative (|s|+9) 2^-50.", "quantifier": "every 1 <= L <= 2^52, N in 1..41, every J_min, lam, spin, every reference spin with the ratio in range, every multipole, order and scale, every exp, pow and loggamma with the stated accuracy; the looped directional filters", "why_tests_cant": "no test of the repository sets a reference spin; overflow needs large factors at particular multipoles", "anchors": ["s2wav/filters.py:_spin_normalization", "s2wav/filters.py:filters_directional"]}
{"id": "C68", "title": "Losses of the transforms are quadratic, with known gradients", "statement": "The sum over pixels of the squared modulus of synthesis minus a target, as a function of the wavelet and scaling maps, and that of analysis minus target maps, as a function of the field, is an exact quadratic polynomial with non-negative leading coefficient along every line; its directional derivative is twice the real inner product of the residual with the transform of the direction, and central differences of every step size equal it exactly.", "quantifier": "every implementation, every field or decomposition the transform accepts and every direction of the same shape, all targets, all parameters, all linear transform libraries", "why_tests_cant": "the gradient tests compare numerical and automatic differentiation in a few random directions at L = 8", "anchors": ["tests/test_gradients.py", "s2wav/transforms/wavelet.py:synthesis", "s2wav/transforms/wavelet.py:analysis", "s2wav/transforms/wavelet_precompute.py:synthesis", "s2wav/transforms/wavelet_precompute.py:analysis", "s2wav/transforms/wavelet_c.py:synthesis", "s2wav/transforms/wavelet_c.py:analysis"]}
{"id": "C69", "title": "Analysis and synthesis in floating point", "statement": "In binary64 with the default dilation the vectorised analysis succeeds whenever the transforms do; the coefficients it hands to the inverse transforms are finite and within 2^-49 |x| + 2^-1073 of the exact products x of the computed filters with the computed harmonic coefficients. Synthesis accepts exactly the lists of maps with the documented number and shapes; the coefficients it hands to the inverse transform are finite and differ from the exact combination of the recovered wavelet and scaling coefficients by at most (N+J+8) 2^-52 times the same combination of the moduli, plus 2^-1060, whatever the order in which einsum adds.", "quantifier": "every 1 <= L <= 2^52, N <= min(L, 41), J_min, spin, sampling, multiresolution and reality flag, every library and transforms, all harmonic and Wigner coefficients of modulus up to 2^900, every summation order", "why_tests_cant": "tests compare round trips of a few random fields at L = 8 with a tolerance; overflow, the order of summation and the worst case over inputs are not sampled", "anchors": ["s2wav/transforms/base.py:analysis", "s2wav/transforms/base.py:synthesis", "s2wav/samples.py:wavelet_shape_check"]}
{"id": "C70", "title": "The round trip in floating point", "statement": "In binary64 with the default dilation, if the library's transforms invert each other up to a relative error d (in the largest modulus), then analysis of a field followed by synthesis succeeds, and the harmonic coefficients it ends with are finite, vanish where they must, and differ from the original ones by at most (E + 2^-32) |x| + d B (3 sqrt(N (J+1) (2l+1)) + 21) + 2^-1000, with E the quadrature error of C51 and B a bound on the coefficients.", "quantifier": "every 1 <= L <= 2^52, N <= min(L, 41), J_min, spin, sampling, multiresolution and reality flag, all band-limited fields with coefficients bounded by some B from 2^-900 to 2^780, every library with the stated accuracy, every 0 <= d <= 1, every summation order", "why_tests_cant": "the round-trip tests check a few random fields at L = 8 against a fixed tolerance; they cannot bound the error for all fields and band-limits", "anchors": ["tests/test_wavelets_base.py", "s2wav/transforms/base.py:analysis", "s2wav/transforms/base.py:synthesis"]}
{"id": "C71", "title": "JAX and precompute transforms in floating point", "statement": "In binary64 with the default dilation, given the filters and kernels that the package itself generates, the JAX and the precompute analysis hand to the inverse transforms coefficients that are finite and within 2^-49 |x| + 2^-1073 of the exact products x of the computed filters with the computed harmonic coefficients, each with the kernel of its scale. The coefficients that both syntheses hand to the inverse transform are finite and differ from the exact combination of the recovered coefficients by at most (N+J+8) 2^-52 times the same combination of the moduli, plus 2^-1060.", "quantifier": "every 1 <= L <= 2^52, N <= min(L, 41), J_min, spin, sampling and reality flag, precomputed kernels passed or (JAX) left out, every library and transforms, all harmonic and Wigner coefficients of modulus up to 2^900, every summation order", "why_tests_cant": "tests compare round trips of a few random fields at L = 8 with a tolerance; overflow, the order of summation and the worst case over inputs are not sampled", "anchors": ["s2wav/transforms/wavelet.py:analysis", "s2wav/transforms/wavelet.py:synthesis", "s2wav/transforms/wavelet_precompute.py:analysis", "s2wav/transforms/wavelet_precompute.py:synthesis", "s2wav/transforms/construct.py"]}
{"id": "C72", "title": "Round trip of the JAX and precompute transforms in floating point", "statement": "In binary64 with the default dilation, if the transforms a backend uses (with its single-pixel formula for a scaling map of band-limit 1) invert each other up to a relative error d, then analysis followed by synthesis succeeds, and the harmonic coefficients it ends with are finite, vanish where they must, and differ from the original ones by at most (E + 2^-32) |x| + d B (3 sqrt(N (J+1) (2l+1)) + 21) + 2^-1000, with E the quadrature error of C51 and B a bound on the coefficients.", "quantifier": "every 1 <= L <= 2^52, N <= min(L, 41), J_min, spin, sampling and reality flag, precomputed kernels passed or (JAX) left out, every library and transforms with the stated accuracy, all band-limited fields with coefficients bounded by some B from 2^-900 to 2^780, every 0 <= d <= 1, every summation order", "why_tests_cant": "the round-trip tests check a few random fields at L = 8 against a fixed tolerance; they cannot bound the error for all fields and band-limits", "anchors": ["tests/test_wavelets.py", "s2wav/transforms/wavelet.py", "s2wav/transforms/wavelet_precompute.py"]}
{"id": "C73", "title": "The backends compute the same coefficients in floating point", "statement": "In binary64 with the default dilation and multiresolution, if their forward transforms return the same coefficients, then the base, JAX and precompute analyses hand the same scaling coefficients and bit-identical wavelet coefficients (up to the sign of zeros) to their inverse transforms, and the three syntheses hand over exactly the same array.", "quantifier": "every 1 <= L <= 2^52, N <= min(L, 41), J_min, spin, sampling and reality flag, precomputed kernels passed or (JAX) left out, every library and transforms, all coefficient arrays of the right shape, including infinities and NaNs", "why_tests_cant": "tests compare the backends on a few random fields up to a tolerance", "anchors": ["s2wav/transforms/base.py", "s2wav/transforms/wavelet.py", "s2wav/transforms/wavelet_precompute.py"]}
{"id": "C74", "title": "Torch and SSHT transforms in floating point", "statement": "In binary64, for the default dilation with multiresolution, the torch and SSHT analyses hand to their inverse transforms wavelet and scaling coefficients that are, entry by entry, within a relative error 2^-49 (plus 2^-1073) of the exact products of filter, weight and harmonic coefficient, and the syntheses hand over coefficients within (N+J+8) 2^-52 times the sum of the magnitudes of the terms added; none overflows.", "quantifier": "every 1 <= L <= 2^52, N <= min(L, 41), J_min, spin, sampling of the backend, reality flag, any transforms of the library, all finite coefficients below 2^900, any order of summation in einsum", "why_tests_cant": "tests compare float outputs on a few random fields and sizes with a loose tolerance", "anchors": ["s2wav/transforms/wavelet_precompute_torch.py", "s2wav/transforms/wavelet_c.py", "s2wav/samples.py:construct_flmn_torch"]}
{"id": "C75", "title": "Round trip of the torch and SSHT transforms in floating point", "statement": "In binary64, if the transforms of the library invert each other up to a relative error d, then torch or SSHT analysis followed by the synthesis of the same backend hands to the last inverse transform coefficients that differ from the signal's by at most (E + 2^-32) of their size, E being the quadrature error of the filters, plus a multiple of d times the size of the signal that is stated explicitly; neither call raises.", "quantifier": "every 1 <= L <= 2^52, N <= min(L, 41), 0 <= J_min < J, spin, sampling, complex and real signals, all band-limited signals with coefficients between 2^-900 and 2^780 in size, any order of summation", "why_tests_cant": "tests do one round trip of a random field at one size per configuration", "anchors": ["s2wav/transforms/wavelet_precompute_torch.py", "s2wav/transforms/wavelet_c.py"]}
{"id": "C76", "title": "Wavelet coefficients from harmonic coefficients in floating point", "statement": "In binary64, flm_to_analysis of the JAX, precompute, torch and SSHT backends hands to the inverse Wigner transforms, scale by scale, coefficients within a relative error 2^-49 (plus 2^-1073) of the exact products of filter, weight and harmonic coefficient, and returns one map per scale up to the top scale asked for.", "quantifier": "every 1 <= L <= 2^52, N <= min(L, 41), J_min, spin, sampling of the backend, reality flag, any library, all finite harmonic coefficients below 2^900; any top scale from J_min to J for JAX and SSHT, the default one for precompute and torch", "why_tests_cant": "tests call these functions on one random field with the default top scale", "anchors": ["s2wav/transforms/wavelet.py:flm_to_analysis", "s2wav/transforms/wavelet_precompute.py:flm_to_analysis", "s2wav/transforms/wavelet_precompute_torch.py:flm_to_analysis", "s2wav/transforms/wavelet_c.py:flm_to_analysis"]}
{"id": "C77", "title": "JAX, precompute, torch and SSHT compute identical coefficients in floating point", "statement": "In binary64 with the default dilation and multiresolution, if their forward transforms return the same coefficients, then the analyses and the flm_to_analysis of the JAX, precompute, torch and SSHT backends hand bit for bit the same wavelet and scaling coefficients to their inverse transforms, and their syntheses hand over the same array.", "quantifier": "every 1 <= L <= 2^52, N <= min(L, 41), J_min, spin, sampling that SSHT has, reality flag (with a real signal), kernels passed or (JAX) left out, every library, all coefficient arrays of the right shape, including infinities and NaNs", "why_tests_cant": "tests compare each backend with the base transforms on a few random fields up to a tolerance", "anchors": ["s2wav/transforms/wavelet.py", "s2wav/transforms/wavelet_precompute.py", "s2wav/transforms/wavelet_precompute_torch.py", "s2wav/transforms/wavelet_c.py"]}
{"id": "C78", "title": "JAX filters equal the numpy filters bit for bit in floating point", "statement": "In binary64 the axisymmetric filters of the JAX implementation are those of the vectorised numpy implementation, bit for bit and error for error, for every dilation. For N <= 41 the directional component and the directional filters are also the same bits, although JAX and numpy use different log-gamma and exp functions, as long as both are accurate; numpy's do not depend on the library either. A non-zero spin0 raises. Hence with lam = 2 the JAX filters are admissible up to the quadrature error and 2^-33, and the JAX round trip with JAX filters has the error bound of C72.", "quantifier": "every L >= 1, J_min, dilation, spin; N in 1..41; every pair of log-gamma functions with error at most 2^-47 (1 + ln n!) and exp functions with relative error at most 2^-47", "why_tests_cant": "tests compare the two with a tolerance on one platform, for a few parameters; equality of all bits under any accurate library cannot be sampled", "anchors": ["s2wav/filters.py:filters_axisym_jax", "s2wav/filters.py:filters_directional_jax", "s2wav/filters.py:k_lam_jax", "s2wav/filters.py:tiling_direction_jax", "s2wav/samples.py:binomial_coefficient_jax"]}
{"id": "C79", "title": "Looped and vectorised filters agree in floating point", "statement": "In binary64 the looped and the vectorised axisymmetric filters are the same bits at every scale from J_min on and every multipole where the computed table of k_lam does not decrease with the scale; where it does, the vectorised filter is zero and the looped one repeats the value of the preceding multipole; below J_min the looped filter is zero. With lam = 2 a difference is only possible at multipoles below 2^j, and there the square of the looped value is at most twice the quadrature error plus 2^-33. The directional scaling functions are the same up to the sign of zeros; the directional wavelets, whose weights are rounded differently, agree to a relative 2^-48 wherever the kernels do, in particular for lam = 2 at every multipole from 2^j on.", "quantifier": "every L, J_min, dilation and spin; every exp and power function for the axisymmetric part; N in 1..41 and accurate log-gamma and exp for the wavelets", "why_tests_cant": "the tests compare the two with a relative tolerance of 1e-14 for a few sizes on one platform; that nothing but the copied values can differ, for every size, library and dilation, cannot be sampled", "anchors": ["s2wav/filters.py:filters_axisym", "s2wav/filters.py:filters_axisym_vectorised", "s2wav/filters.py:filters_directional", "s2wav/filters.py:filters_directional_vectorised"]}
{"id": "C80", "title": "Looped transforms in floating point: coefficients and round trip", "statement": "In binary64 with lam = 2 the looped analysis passes to s2fft's inverse transforms, for real and complex signals, wavelet and scaling coefficients that are numbers within a relative 2^-49 of the exact products of the computed filters with the coefficients of the signal. The looped synthesis passes on coefficients within (N(J+1)+8) 2^-52 of the exact sum, measured by the sum of moduli, at every order (every order m >= 0 when the signal is declared real). Looped synthesis after looped analysis restores each coefficient of a complex signal, and each coefficient of order m >= 0 of a real signal, up to three times the quadrature error plus 2^-30, relatively, plus the error of s2fft's transforms times 3 sqrt(N (J+1) (2l+1)) + 21.", "quantifier": "every L <= 2^52, N in 1..41, J_min, spin, sampling and resolution mode, every signal with coefficients at most 2^780, every s2fft with relative error at most 1, every accurate exp and log-gamma", "why_tests_cant": "tests run the looped transforms for a few small sizes and compare with a tolerance; a rounding error bound for all band-limits and signals cannot be sampled", "anchors": ["s2wav/transforms/base.py:analysis_looped", "s2wav/transforms/base.py:synthesis_looped", "s2wav/filters.py:filters_directional"]}
{"id": "C81", "title": "The scattering flag in floating point", "statement": "In binary64, base analysis with scattering off is the plain analysis, and with scattering on it returns the moduli, pixel by pixel, of exactly the wavelet maps it returns with scattering off, the same scaling map, and the same exceptions. Each modulus is a non-negative real number, and if the computed pixel is within e of a number u, the modulus is within e + 2^-52 (|u| + e) + 2^-1074 of |u|.", "quantifier": "every signal and parameter setting, every s2fft, exp, log-gamma and power function; every modulus function that is exact at 0 and within one unit in the last place; pixels of modulus at most 2^1000 for the error bound", "why_tests_cant": "no test sets the flag, and an error bound for every pixel value and every library cannot be sampled", "anchors": ["s2wav/transforms/base.py:analysis"]}
{"id": "C82", "title": "Storage of the wavelet maps does not grow with the number of scales", "statement": "With multiresolution the arrays allocated for the wavelet maps of all scales have together at most D (2N-1) (3 + 4 lam^2/(lam^2-1)) L^2 entries, where D is 2 for MW and GL and 4 for MWSS and DH; for lam = 2, at most D (2N-1) (10 L^2 + 32)/3. Without multiresolution they have exactly J - J_min + 1 times the entries of one map.", "quantifier": "every L >= 1, N >= 1, dilation lam > 1, lowest scale from 0 to J + 1, and sampling except HEALPix (any sampling for the full-resolution part)", "why_tests_cant": "a bound independent of the number of scales concerns band-limits of any size", "anchors": ["s2wav/samples.py:construct_f", "s2wav/samples.py:f_wav_j", "s2wav/samples.py:LN_j", "s2wav/samples.py:wav_j_bandlimit"]}
{"id": "C83", "title": "The JAX directional filters raise for 64 or more directions", "statement": "With spin0 = 0 and a valid lowest scale, filters_directional_jax returns filters exactly if N < 64, or L < 64, or L = 64 and N is odd. Otherwise it raises OverflowError, because JAX converts the Python integer 2**gamma to int64, while filters_directional and filters_directional_vectorised return filters for the same arguments (in exact arithmetic; in binary64 up to N = 1024, see C87). Whatever filters_directional_jax returns, filters_directional_vectorised returns too. The same overflow occurs in binary64, whatever log-gamma, exp and power functions compute.", "quantifier": "every L >= 1, N >= 1, lam > 1, lowest scale, spin; JAX in 64-bit mode", "why_tests_cant": "the tests use N <= 5; the boundary depends on two sizes and a parity", "anchors": ["s2wav/filters.py:tiling_direction_jax", "s2wav/filters.py:filters_directional_jax"]}
{"id": "C84", "title": "Wavelets of different scales are dilations of one another", "statement": "If l' = lam^s l, the generating function of scale j + s at degree l' equals that of scale j at degree l, and so do the axisymmetric wavelet filter and the scaling filter of filters_axisym_vectorised and filters_axisym_jax, also when the two filters are built for different band-limits L and L'. For filters_axisym this holds at degrees where the generating function does not decrease with the scale. Directional filters (vectorised and JAX) agree in the same way up to the factors sqrt(2l+1), for degrees of at least N and at least |spin|. In binary64 with lam = 2 the equalities of the generating function and of the vectorised and JAX axisymmetric filters hold bit for bit.", "quantifier": "every L, L' >= 1, N >= 1, lam > 1, shift s (positive or negative), scales and degrees within both sets of filters; binary64: L, L' <= 2^53, any exp, exact powers of two", "why_tests_cant": "relates all pairs of scales and band-limits; the tests never compare filters of different scales", "anchors": ["s2wav/filters.py:k_lam", "s2wav/filters.py:filters_axisym", "s2wav/filters.py:filters_axisym_vectorised", "s2wav/filters.py:filters_axisym_jax", "s2wav/filters.py:filters_directional_vectorised", "s2wav/filters.py:filters_directional_jax"]}
{"id": "C85", "title": "With inexact transforms (HEALPix) the wavelet round trip does not amplify their error", "statement": "Suppose that on band-limited coefficients inverse-then-forward returns coefficients with a relative error of at most eps in norm, on the sphere and on SO(3). Analyse any map f and synthesise the result: the returned map is the inverse transform of coefficients whose distance from (admissibility sum) x (coefficients that the forward transform reads from f) is at most eps * D times their norm, where D bounds the admissibility sum. If the filters are admissible and f is the inverse transform of coefficients flm, the returned map is the inverse transform of coefficients within eps*(2+eps)*||flm|| of flm. Analysis and synthesis (vectorised numpy, JAX, precompute, Torch, C backend) return on such a map, in every sampling they support, HEALPix included.", "quantifier": "every eps > 0, library within eps, L, N <= L, lam > 1, J_min, spin, sampling, reality flag, map or coefficients, implementation (numpy looped or vectorised, JAX, precompute, Torch, C backend), full or multiresolution", "why_tests_cant": "the HEALPix tests compare backends with each other on a few maps; a bound on the error for all fields and all libraries is not testable", "anchors": ["s2wav/transforms/base.py:analysis", "s2wav/transforms/base.py:synthesis", "s2wav/transforms/base.py:analysis_looped", "s2wav/transforms/base.py:synthesis_looped", "s2wav/transforms/wavelet.py:analysis", "s2wav/transforms/wavelet.py:synthesis"]}
{"id": "C86", "title": "Many directions in binary64", "statement": "Computed in binary64, the binomial coefficients for n <= 1023 have a relative error of at most 2^-31, and are exact where they do not exceed 2^31. Whenever the binary64 directional component is returned at all (N <= 1024, or a small enough L, see C87), it is finite, has a relative error of at most 2^-30 in every entry, and at each degree its squared moduli sum to 1 up to 2^-29. When N or L is at most 900, filters_directional and filters_directional_vectorised return finite coefficients (lam = 2) within a relative 2^-30 of the product of weight, computed kernel and exact component, and within 2^-50 for the scaling function. With lam = 2 they are admissible: the sum over scales lies between 1 - 2^-29 and 1 + q + 2^-28 (vectorised) or 1 + 3q + 2^-28 (looped), q the quadrature error for lam = 2 (as in C66).", "quantifier": "every L and N for which the component is returned; for the filters every 1 <= L <= 2^52 and N >= 1 with N <= 900 or L <= 900, spin, lowest scale, degree, order and scale; every log-gamma and exp accurate to 2^-47 on the range used (arguments up to 1024 and 709.3; for admissibility also exp to 2^-53 on the kernel's range, exact powers of two)", "why_tests_cant": "the tests use N <= 5 and compare implementations only with each other; the bound concerns every N for which the code does not overflow and every library within the accuracy", "anchors": ["s2wav/samples.py:binomial_coefficient", "s2wav/filters.py:tiling_direction", "s2wav/filters.py:filters_directional", "s2wav/filters.py:filters_directional_vectorised"]}
{"id": "C87", "title": "The numpy directional filters raise from 1025 directions on", "statement": "In binary64, tiling_direction returns exactly if N <= 1024, or L <= 1024, or L = 1025 and N is even; otherwise it raises OverflowError, because the Python integer 2**gamma is too large for a float. Where the axisymmetric filters are computed, filters_directional and filters_directional_vectorised then raise OverflowError too; with lam = 2 they return exactly under the same condition, for every spin (and, looped, every reference spin).", "quantifier": "every L >= 1 and N, lowest scale, dilation, spin; whatever loggamma, exp and pow compute (lam = 2: exact powers of two, L <= 2^52)", "why_tests_cant": "the tests use N <= 5; the boundary depends on two sizes and a parity", "anchors": ["s2wav/filters.py:tiling_direction", "s2wav/filters.py:filters_directional", "s2wav/filters.py:filters_directional_vectorised"]}
{"id": "C88", "title": "Accuracy of the JAX directional filters in binary64 whenever they are returned", "statement": "In binary64, filters_directional_jax (spin0 = 0) returns filters exactly if filters_axisym_jax does for the same scales and the powers of two fit into an int64 (N < 64, or L < 64, or L = 64 and N odd). Whenever tiling_direction_jax returns, its component is finite, has a relative error of at most 2^-30 in every entry, its squared moduli sum to 1 at each degree up to 2^-29, and with the same log-gamma and exp it has the bits of tiling_direction. Whenever filters_directional_jax returns, each coefficient with a finite kernel is within a relative 2^-30 of the product of weight, computed kernel and exact component, for every dilation. With lam = 2 all coefficients are finite, the filters are admissible up to the quadrature error and 2^-28, the scaling function has the bits of filters_directional_vectorised, and the wavelets differ from those by a relative 2^-28 at most, even if the log-gamma and exp functions of JAX and numpy differ.", "quantifier": "every 1 <= L <= 2^52, N >= 1, lowest scale, spin, degree, order and scale; every pair of log-gamma and exp functions accurate to 2^-47 on the range used (for admissibility also exp to 2^-53 on the kernel's range and exact powers of two)", "why_tests_cant": "the tests use N <= 5 and compare the JAX filters with numpy's on one platform; the statement covers every size for which the call does not raise and every accurate library", "anchors": ["s2wav/filters.py:filters_directional_jax", "s2wav/filters.py:tiling_direction_jax", "s2wav/samples.py:binomial_coefficient_jax"]}
{"id": "C89", "title": "Filters with dilation 3 overflow in floating point from band-limit 795 on", "statement": "With lam = 3, in binary64, the wavelet generating function and the axisymmetric filters of all three implementations (looped, vectorised, JAX) never raise. An entry of the generating function is +inf exactly if its degree l lies in the band of scale j and the last quadrature point a + 300 h, computed from a = l / 3^j and h = (1 - a) / 300, exceeds 1; every other entry is finite and non-negative. The first such degree is l = 794, at scale 7. Hence with L <= 794 the filters of all three implementations are finite, and so are the coefficients, at degrees of at least |spin|, of the looped, vectorised and JAX directional filters, which are returned exactly under the conditions on N and L that hold for other dilations (C87, C88); moreover the squares of the vectorised and JAX axisymmetric filters then sum to at least 1 - 2^-51 at every degree, and to more than 1 + 2^-51 only where an entry of the generating function exceeds 1. But with L >= 795 all three implementations return +inf: for the wavelet of scale 6 at degree 794 if J_min <= 6, for the scaling function at degree 794 if J_min = 7. The vectorised and JAX directional filters then have a real part that is infinite or NaN at degree 794 for every order (|spin| <= 794).", "quantifier": "every 0 <= L <= 2^53, highest scale J <= 32, lowest scale, degree, N, spin and order; for the finiteness of the directional filters the accuracy of loggamma and exp as in C86; every exp with absolute error at most 2^-53 up to -2 and +inf above 710; every power function exact on 3^0, ..., 3^(J+1) (for the sum of squares also increasing from 3^-1 on, and L <= 3^J)", "why_tests_cant": "the tests use L <= 16; whether a quadrature point is rounded beyond the end of the interval depends on the last bit of every degree", "anchors": ["s2wav/filters.py:part_scaling_fn", "s2wav/filters.py:tiling_integrand", "s2wav/filters.py:k_lam", "s2wav/filters.py:k_lam_jax", "s2wav/filters.py:filters_axisym", "s2wav/filters.py:filters_axisym_vectorised", "s2wav/filters.py:filters_axisym_jax", "s2wav/filters.py:filters_directional_vectorised", "s2wav/filters.py:filters_directional", "s2wav/filters.py:filters_directional_jax"]}
{"id": "C90", "title": "With dilation 3, every transform from band-limit 795 on produces infinities or NaNs", "statement": "With lam = 3, L >= 795 and J_min <= 6, in binary64: whenever analysis returns (numpy vectorised or looped at either resolution, JAX, precompute, PyTorch, SSHT), the wavelet coefficients of scale 6 are the inverse Wigner transform of coefficients whose real part is infinite or NaN at degree 794, for every order m and every direction of the parity of N - 1 (when looped, with |n| <= 794, and so are the looped directional filters themselves), whatever the signal; the same holds of flm_to_analysis of the JAX, precompute, PyTorch and SSHT backends, whatever the harmonic coefficients. Whenever synthesis returns, the signal is the inverse spherical-harmonic transform of coefficients whose real part is infinite or NaN at degree 794 for every |m| <= 794, whatever the wavelet and scaling coefficients, even if all are zero.", "quantifier": "every signal or set of coefficients, 795 <= L <= 2^50, 1 <= N <= L, J_min <= 6, |spin| <= 794, sampling scheme, reality, resolution; every s2fft whose results have the documented shapes, every order of summation, every exp with absolute error at most 2^-53 up to -2 and +inf above 710, every power function exact on powers of 3; with loops, which skip vanishing values of the directionality component: also every loggamma and exp with relative error 2^-47 as in C86; the backends other than numpy: vectorised or JAX filters, the precomputed kernels of generate_full_precomputes, and for SSHT a scheme it supports and, with reality, a signal without imaginary part; flm_to_analysis: any highest scale J_max >= 6 for JAX and SSHT, all scales for precompute and PyTorch", "why_tests_cant": "the tests use L <= 16, far below the smallest affected band-limit, and compare single round trips", "anchors": ["s2wav/transforms/base.py:analysis", "s2wav/transforms/base.py:synthesis", "s2wav/transforms/wavelet.py:analysis", "s2wav/transforms/wavelet.py:synthesis", "s2wav/transforms/wavelet_precompute.py:analysis", "s2wav/transforms/wavelet_precompute.py:synthesis", "s2wav/transforms/wavelet_precompute_torch.py:analysis", "s2wav/transforms/wavelet_precompute_torch.py:synthesis", "s2wav/transforms/wavelet_c.py:analysis", "s2wav/transforms/wavelet_c.py:synthesis", "s2wav/transforms/wavelet.py:flm_to_analysis", "s2wav/transforms/wavelet_precompute.py:flm_to_analysis", "s2wav/transforms/wavelet_precompute_torch.py:flm_to_analysis", "s2wav/transforms/wavelet_c.py:flm_to_analysis", "s2wav/filters.py:part_scaling_fn"]}
{"id": "C91", "title": "Filters with dilation 4 never overflow in floating point", "statement": "With lam = 4, in binary64, and for every band-limit, the wavelet generating function and the axisymmetric filters of all three implementations (looped, vectorised, JAX) never raise; every entry of the generating function is finite and non-negative, and every value of the filters, wavelets and scaling function, is finite. The numpy directional filters are returned whenever the powers of two of the directional component are representable, the JAX ones exactly if these fit into an int64, and every coefficient at a degree of at least |spin| is then finite (numpy: N <= 900 or L <= 900). The squares of the vectorised and JAX axisymmetric filters sum to at least 1 - 2^-51 at every degree, and to more than 1 + 2^-51 only where an entry of the generating function exceeds 1 (an error of the quadrature); the squares of the moduli of the vectorised directional filters sum, over the scales and orders, to at least 1 - 2^-29 at every degree l >= 1 with l >= |spin|. (Compare C89: with lam = 3 infinities appear from band-limit 795 on.)", "quantifier": "every 0 <= L <= 2^53 (directional: 1 <= L <= 2^52), highest scale J <= 25 (4^(J+1) <= 2^52) and lowest scale 0 <= J_min < J, every scale, degree, order, N and spin; no assumption on exp for not raising, every exp with absolute error at most 2^-53 up to -2 for finiteness, for the directional component the accuracy of loggamma and exp as in C86; every power function exact on 4^0, ..., 4^(J+1) (for the sum of squares also increasing from 4^-1 on, and L <= 4^J)", "why_tests_cant": "the tests never use lam = 4, and whether a quadrature point is rounded beyond the end of the interval depends on the last bit of every degree", "anchors": ["s2wav/filters.py:part_scaling_fn", "s2wav/filters.py:tiling_integrand", "s2wav/filters.py:k_lam", "s2wav/filters.py:k_lam_jax", "s2wav/filters.py:filters_axisym", "s2wav/filters.py:filters_axisym_vectorised", "s2wav/filters.py:filters_axisym_jax", "s2wav/filters.py:filters_directional", "s2wav/filters.py:filters_directional_vectorised", "s2wav/filters.py:filters_directional_jax"]}
