{
 "claims": [
  {
   "property": "C01",
   "status": "proved",
   "theorems": [
    "C01_j_max_is_least_covering_scale",
    "C01_j_max_not_positive_for_contractions",
    "C01_j_max_fails_outside"
   ],
   "note": "Exact real arithmetic; floating point is C45."
  },
  {
   "property": "C02",
   "status": "proved",
   "theorems": [
    "C02_band_limits_nest",
    "C02_band_limits_monotone",
    "C02_band_limits_overlap"
   ],
   "note": "The no-gap part holds up to the largest scale (j+1 <= j_max), as stated."
  },
  {
   "property": "C03",
   "status": "proved",
   "theorems": [
    "C03_finest_scales_full_resolution",
    "C03_scattering_buffer_fits"
   ],
   "note": ""
  },
  {
   "property": "C04",
   "status": "proved",
   "theorems": [
    "C04_directionality_per_scale"
   ],
   "note": ""
  },
  {
   "property": "C05",
   "status": "proved",
   "theorems": [
    "C05_wigner_constructors",
    "C05_pixel_constructors",
    "C05_explicit_J_max",
    "C05_scaling_constructors"
   ],
   "note": "construct_f_jax / construct_f_torch return lists of empty lists in the code, so only their length is meaningful."
  },
  {
   "property": "C06",
   "status": "proved",
   "theorems": [
    "C06_shape_check_exact"
   ],
   "note": ""
  },
  {
   "property": "C07",
   "status": "proved",
   "theorems": [
    "C07_vectorised_analysis_accepted",
    "C07_looped_analysis_accepted"
   ],
   "note": ""
  },
  {
   "property": "C08",
   "status": "proved",
   "theorems": [
    "C08_invalid_scale_range_rejected",
    "C08_valid_scale_range_accepted"
   ],
   "note": ""
  },
  {
   "property": "C09",
   "status": "proved",
   "theorems": [
    "C09_quadrature_positive",
    "C09_generating_function_values"
   ],
   "note": ""
  },
  {
   "property": "C10",
   "status": "proved",
   "theorems": [
    "C10_admissibility",
    "C10_admissibility_exact_in_upper_half",
    "C10_admissibility_looped",
    "C10_admissibility_looped_exact_in_upper_half"
   ],
   "note": ""
  },
  {
   "property": "C11",
   "status": "proved",
   "theorems": [
    "C11_wavelet_support_looped",
    "C11_wavelet_support_vectorised",
    "C11_scaling_support"
   ],
   "note": ""
  },
  {
   "property": "C12",
   "status": "proved",
   "theorems": [
    "C12_directional_component",
    "C12_directional_component_closed_form"
   ],
   "note": ""
  },
  {
   "property": "C13",
   "status": "proved",
   "theorems": [
    "C13_binomial_exact",
    "C13_binomial_robust"
   ],
   "note": ""
  },
  {
   "property": "C14",
   "status": "proved",
   "theorems": [
    "C14_directional_total_looped",
    "C14_directional_admissibility_looped",
    "C14_directional_admissibility_vectorised",
    "C14_directional_admissibility_upper_half"
   ],
   "note": ""
  },
  {
   "property": "C15",
   "status": "proved",
   "theorems": [
    "C15_conjugate_symmetry",
    "C15_parity_real_or_imaginary"
   ],
   "note": ""
  },
  {
   "property": "C16",
   "status": "proved",
   "theorems": [
    "C16_looped_vs_vectorised_axisym",
    "C16_rows_below_J_min_differ"
   ],
   "note": "Also refutes the documented equivalence of the two constructors for J_min > 0: the rows below J_min differ."
  },
  {
   "property": "C17",
   "status": "proved",
   "theorems": [
    "C17_looped_vs_vectorised_directional"
   ],
   "note": ""
  },
  {
   "property": "C18",
   "status": "proved",
   "theorems": [
    "C18_jax_equals_numpy",
    "C18_directional_component_any_loggamma"
   ],
   "note": ""
  },
  {
   "property": "C19",
   "status": "proved",
   "theorems": [
    "C19_spin_normalisation",
    "C19_spin_normalisation_inverse"
   ],
   "note": ""
  },
  {
   "property": "C20",
   "status": "proved",
   "theorems": [
    "C20_array_versions_fail_for_spin0",
    "C20_looped_spin0_scales"
   ],
   "note": "Refutes the documented spin0 parameter of the vectorised and JAX constructors: they raise for every spin0 <> 0."
  },
  {
   "property": "C21",
   "status": "proved",
   "theorems": [
    "C21_filters_vanish_below_spin"
   ],
   "note": ""
  },
  {
   "property": "C22",
   "status": "proved",
   "theorems": [
    "C22_analysis_coefficients",
    "C22_synthesis_coefficients",
    "C22_reconstruction"
   ],
   "note": ""
  },
  {
   "property": "C23",
   "status": "proved",
   "theorems": [
    "C23_round_trip_vectorised",
    "C23_round_trip_looped",
    "C23_round_trip_jax",
    "C23_round_trip_precompute",
    "C23_round_trip_torch",
    "C23_round_trip_c"
   ],
   "note": "The sampling theorem of s2fft is a hypothesis; Demo.v has an instance that satisfies it for MW, MWSS, DH and GL. It is not satisfiable for HEALPix, whose transforms are not exact."
  },
  {
   "property": "C24",
   "status": "proved",
   "theorems": [
    "C24_spin0_factor_in_general",
    "C24_spin0_never_reconstructs",
    "C24_spin0_factor",
    "C24_spin0_round_trip_refuted"
   ],
   "note": "Refutes exact reconstruction for spin0 <> 0; the exact factor is proved."
  },
  {
   "property": "C25",
   "status": "proved",
   "theorems": [
    "C25_analysis_looped_equals_vectorised",
    "C25_synthesis_looped_equals_vectorised"
   ],
   "note": ""
  },
  {
   "property": "C26",
   "status": "proved",
   "theorems": [
    "C26_looped_analysis_coefficients",
    "C26_coefficients_of_real_signals"
   ],
   "note": ""
  },
  {
   "property": "C27",
   "status": "proved",
   "theorems": [
    "C27_looped_synthesis_coefficients",
    "C27_reality_nonnegative_orders",
    "C27_reality_negative_orders_refuted"
   ],
   "note": "The negative orders of the looped synthesis with reality are proved to be wrong in the stated way."
  },
  {
   "property": "C28",
   "status": "proved",
   "theorems": [
    "C28_wavelet_coefficients",
    "C28_scaling_coefficients",
    "C28_synthesised_coefficients",
    "C28_same_signal"
   ],
   "note": ""
  },
  {
   "property": "C29",
   "status": "proved",
   "theorems": [
    "C29_jax_analysis",
    "C29_jax_synthesis",
    "C29_precompute_analysis",
    "C29_precompute_synthesis",
    "C29_torch_analysis",
    "C29_torch_synthesis",
    "C29_c_analysis",
    "C29_c_synthesis"
   ],
   "note": ""
  },
  {
   "property": "C30",
   "status": "proved",
   "theorems": [
    "C30_every_analysis_linear",
    "C30_every_synthesis_linear",
    "C30_wavelet_coefficients_linear",
    "C30_scaling_coefficients_linear",
    "C30_synthesised_coefficients_linear",
    "C30_analysis_linear",
    "C30_synthesis_linear"
   ],
   "note": ""
  },
  {
   "property": "C31",
   "status": "proved",
   "theorems": [
    "C31_energy",
    "C31_parseval",
    "C31_analysis_energy"
   ],
   "note": ""
  },
  {
   "property": "C32",
   "status": "proved",
   "theorems": [
    "C32_jax",
    "C32_precompute",
    "C32_torch",
    "C32_c",
    "C32_jax_truncated",
    "C32_precompute_truncated",
    "C32_c_truncated"
   ],
   "note": ""
  },
  {
   "property": "C33",
   "status": "proved",
   "theorems": [
    "C33_jax_analysis",
    "C33_jax_synthesis",
    "C33_precompute_analysis",
    "C33_precompute_synthesis",
    "C33_torch_analysis",
    "C33_torch_synthesis"
   ],
   "note": ""
  },
  {
   "property": "C34",
   "status": "proved",
   "theorems": [
    "C34_precompute",
    "C34_precompute_checked",
    "C34_torch",
    "C34_torch_checked",
    "C34_unshifted",
    "C34_unshifted_top",
    "C34_which_scales"
   ],
   "note": "Describes a defect of truncated precompute analysis exactly as it behaves."
  },
  {
   "property": "C35",
   "status": "proved",
   "theorems": [
    "C35_precompute_analysis",
    "C35_precompute_synthesis",
    "C35_torch_analysis",
    "C35_torch_synthesis"
   ],
   "note": "Describes a defect: spherical kernels are built for spin 0 whatever the field."
  },
  {
   "property": "C36",
   "status": "proved",
   "theorems": [
    "C36_precompute",
    "C36_torch",
    "C36_c"
   ],
   "note": ""
  },
  {
   "property": "C37",
   "status": "proved",
   "theorems": [
    "C37_promised_shape",
    "C37_jax",
    "C37_precompute",
    "C37_torch",
    "C37_c"
   ],
   "note": "The promised shape is refuted for MWSS, DH and HEALPix when the scaling band-limit is 1."
  },
  {
   "property": "C38",
   "status": "proved",
   "theorems": [
    "C38_scaling_functions_nest",
    "C38_rows_do_not_depend_on_J_min"
   ],
   "note": ""
  },
  {
   "property": "C39",
   "status": "proved",
   "theorems": [
    "C39_band_limit_independence_looped",
    "C39_band_limit_independence_vectorised"
   ],
   "note": ""
  },
  {
   "property": "C40",
   "status": "proved",
   "theorems": [
    "C40_axisymmetric_case"
   ],
   "note": ""
  },
  {
   "property": "C41",
   "status": "proved",
   "theorems": [
    "C41_harmonic_triangle",
    "C41_synthesis",
    "C41_looped_synthesis"
   ],
   "note": ""
  },
  {
   "property": "C42",
   "status": "proved",
   "theorems": [
    "C42_slice_in_range",
    "C42_slice_wraps",
    "C42_analysis_any_number_of_orders",
    "C42_orders_lost",
    "C42_looped_any_number_of_orders",
    "C42_analysis_too_many_orders",
    "C42_synthesis_any_number_of_orders",
    "C42_synthesis_too_many_orders"
   ],
   "note": "Describes what the slices select for every N, including N > L where the vectorised transforms go wrong."
  },
  {
   "property": "C43",
   "status": "proved",
   "theorems": [
    "C43_independent_of_allocation",
    "C43_promised_shapes"
   ],
   "note": ""
  },
  {
   "property": "C44",
   "status": "proved",
   "theorems": [
    "C44_scattering_is_modulus"
   ],
   "note": ""
  },
  {
   "property": "C45",
   "status": "proved",
   "theorems": [
    "C45_within_one_scale",
    "C45_integer_dilations",
    "C45_extra_scale_is_empty",
    "C45_extra_scale_occurs"
   ],
   "note": "The log of the platform is a parameter with a stated accuracy; the division is Flocq's correctly rounded one."
  },
  {
   "property": "C46",
   "status": "proved",
   "theorems": [
    "C46_base_five_degenerate",
    "C46_base_ten_fails",
    "C46_small_bases_finite"
   ],
   "note": "The exp and pow of the platform are parameters; s_arg**2.0 is taken as the rounded product. Scale bases 5 and 10 refute what C09 and C10 prove over the reals."
  },
  {
   "property": "C47",
   "status": "proved",
   "theorems": [
    "C47_jax_quadrature"
   ],
   "note": ""
  },
  {
   "property": "C48",
   "status": "proved",
   "theorems": [
    "C48_generating_function_is_the_quadrature_ratio"
   ],
   "note": ""
  },
  {
   "property": "C49",
   "status": "proved",
   "theorems": [
    "C49_vectorised_filters_from_generating_function",
    "C49_looped_filters_from_generating_function"
   ],
   "note": ""
  },
  {
   "property": "C50",
   "status": "proved",
   "theorems": [
    "C50_generating_function_accuracy",
    "C50_generating_function_converges",
    "C50_vectorised_filters_accuracy",
    "C50_looped_filters_accuracy"
   ],
   "note": ""
  },
  {
   "property": "C51",
   "status": "proved",
   "theorems": [
    "C51_admissibility_within_quadrature_error",
    "C51_admissibility_looped_within_quadrature_error",
    "C51_directional_admissibility_within_quadrature_error",
    "C51_reconstruction_within_quadrature_error",
    "C51_round_trip_vectorised",
    "C51_round_trip_looped",
    "C51_round_trip_jax",
    "C51_round_trip_precompute"
   ],
   "note": ""
  },
  {
   "property": "C52",
   "status": "proved",
   "theorems": [
    "C52_steerable"
   ],
   "note": ""
  },
  {
   "property": "C53",
   "status": "proved",
   "theorems": [
    "C53_component_autocorrelation",
    "C53_wavelet_autocorrelation"
   ],
   "note": ""
  },
  {
   "property": "C54",
   "status": "proved",
   "theorems": [
    "C54_analysis_is_measurable",
    "C54_synthesis_is_measurable",
    "C54_adjoint",
    "C54_every_field",
    "C54_every_decomposition"
   ],
   "note": "The sampling theorem of s2fft is a hypothesis; maps are observed through the library's forward transforms. All implementations; for a backend the library is the one made of its own transforms (SpecSignal.lib_of), with the one-pixel scaling map as a condition where it applies."
  },
  {
   "property": "C55",
   "status": "proved",
   "theorems": [
    "C55_orthogonal_projection"
   ],
   "note": "The sampling theorem of s2fft is a hypothesis; maps are observed through the library's forward transforms. All implementations; for a backend the library is the one made of its own transforms (SpecSignal.lib_of), with the one-pixel scaling map as a condition where it applies."
  },
  {
   "property": "C56",
   "status": "proved",
   "theorems": [
    "C56_analysis_commutes_with_rotations",
    "C56_synthesis_commutes_with_rotations"
   ],
   "note": "The sampling theorem of s2fft is a hypothesis; maps are observed through the library's forward transforms. All implementations; for a backend the library is the one made of its own transforms (SpecSignal.lib_of), with the one-pixel scaling map as a condition where it applies. Holds for arbitrary matrices per degree, so no property of Wigner matrices is needed; spatial rotation enters through the coefficients."
  },
  {
   "property": "C57",
   "status": "proved",
   "theorems": [
    "C57_wavelet_coefficients_localised",
    "C57_at_most_two_scales"
   ],
   "note": "The sampling theorem of s2fft is a hypothesis; maps are observed through the library's forward transforms. All implementations; for a backend the library is the one made of its own transforms (SpecSignal.lib_of), with the one-pixel scaling map as a condition where it applies."
  },
  {
   "property": "C58",
   "status": "proved",
   "theorems": [
    "C58_smooth_fields",
    "C58_oscillating_fields"
   ],
   "note": "The sampling theorem of s2fft is a hypothesis; maps are observed through the library's forward transforms. All implementations; for a backend the library is the one made of its own transforms (SpecSignal.lib_of), with the one-pixel scaling map as a condition where it applies."
  },
  {
   "property": "C59",
   "status": "proved",
   "theorems": [
    "C59_steering"
   ],
   "note": "The sampling theorem of s2fft is a hypothesis; maps are observed through the library's forward transforms. All implementations; for a backend the library is the one made of its own transforms (SpecSignal.lib_of), with the one-pixel scaling map as a condition where it applies."
  },
  {
   "property": "C60",
   "status": "proved",
   "theorems": [
    "C60_analysis",
    "C60_synthesis",
    "C60_exactness"
   ],
   "note": "Sampling theorems of the backend's own transforms are hypotheses; C54_example meets them for every backend, with a one-pixel scaling map. C29 has the comparison between backends whose transforms agree."
  },
  {
   "property": "C61",
   "status": "proved",
   "theorems": [
    "C61_wavelet_support",
    "C61_scaling_support",
    "C61_bandlimits_within_one",
    "C61_sizes_exact_for_integer_dilations",
    "C61_off_by_one_occurs"
   ],
   "note": "exp and pow of the platform are parameters. Coverage is for the numpy axisymmetric versions (looped and vectorised); JAX is not modelled in binary64. Python raises OverflowError inside pow where the model raises it in ceil."
  },
  {
   "property": "C62",
   "status": "proved",
   "theorems": [
    "C62_admissible_up_to_rounding",
    "C62_excess_is_quadrature"
   ],
   "note": "Entries in [0,1] are a hypothesis of the first theorem; the second drops it for the vectorised version."
  },
  {
   "property": "C63",
   "status": "proved",
   "theorems": [
    "C63_generating_function_never_raises",
    "C63_filters_never_raise"
   ],
   "note": "lam = 2 only (the default; other bases can raise, C46). exp is arbitrary; pow is exact on powers of two, as IEEE libraries give."
  },
  {
   "property": "C64",
   "status": "proved",
   "theorems": [
    "C64_generating_function_rounding",
    "C64_generating_function_accuracy",
    "C64_vectorised_filters_rounding",
    "C64_vectorised_filters_accuracy",
    "C64_looped_filters_accuracy",
    "C64_vectorised_filters_admissible",
    "C64_looped_filters_admissible",
    "C64_looped_filters_rounding"
   ],
   "note": "lam = 2, 300 quadrature points (the value the filters use). The accuracy of the platform exp on (-inf, -2] is a hypothesis (2^-53 absolute; half an ulp there is at most 2^-56). numpy versions; JAX and PyTorch filters are not modelled in binary64."
  },
  {
   "property": "C65",
   "status": "proved",
   "theorems": [
    "C65_binomial_exact",
    "C65_binomial_inexact",
    "C65_component_total",
    "C65_component_rounded",
    "C65_component_even",
    "C65_component_normalised"
   ],
   "note": "Values need N <= 41: with more bits the rounding of exp(loggamma) may miss the integer. The accuracy of loggamma (2^-47 (1 + ln n!)) and exp (relative 2^-47) is a hypothesis; a library meeting it is constructed."
  },
  {
   "property": "C66",
   "status": "proved",
   "theorems": [
    "C66_filters_return",
    "C66_default_dilation_never_raises",
    "C66_support",
    "C66_even_in_the_order",
    "C66_coefficients_accurate",
    "C66_total",
    "C66_looped_filters_admissible",
    "C66_vectorised_filters_admissible",
    "C66_default_dilation_finite"
   ],
   "note": "Accuracy statements: spin0 = 0 (see C67 for the others) and N <= 41. The vectorised version raises for spin0 <> 0 (C20). numpy versions; for JAX see C78."
  },
  {
   "property": "C67",
   "status": "proved",
   "theorems": [
    "C67_normalisation_accurate",
    "C67_small_spins_in_range",
    "C67_large_spin_degenerates",
    "C67_coefficients_accurate",
    "C67_total",
    "C67_default_dilation_finite"
   ],
   "note": "Looped numpy version (the array versions raise, C20). Values need N <= 41 and the squared normalisation within 2^-800 .. 2^800."
  },
  {
   "property": "C68",
   "status": "proved",
   "theorems": [
    "C68_synthesis_loss",
    "C68_synthesis_gradient",
    "C68_analysis_loss",
    "C68_analysis_gradient"
   ],
   "note": "Exact arithmetic. The value of the derivative is proved; automatic differentiation by JAX and Torch is not modelled."
  },
  {
   "property": "C69",
   "status": "proved",
   "theorems": [
    "C69_analysis_coefficients",
    "C69_synthesis_coefficients",
    "C69_shape_check"
   ],
   "note": "Vectorised numpy version, lam = 2, spin0 = 0, scattering = False, N <= min(L, 41). No fused multiply-add inside a complex product."
  },
  {
   "property": "C70",
   "status": "proved",
   "theorems": [
    "C70_round_trip"
   ],
   "note": "As C69. The accuracy d of s2fft's transforms is a hypothesis; the quadrature error E is the one of C51. The symmetry of real signals is not claimed for the final coefficients."
  },
  {
   "property": "C71",
   "status": "proved",
   "theorems": [
    "C71_jax_analysis_coefficients",
    "C71_precompute_analysis_coefficients",
    "C71_jax_synthesis_coefficients",
    "C71_precompute_synthesis_coefficients"
   ],
   "note": "As C69; jax_enable_x64 on, XLA taken to evaluate the operations one by one (no fusion into multiply-adds, no flushing of subnormals)."
  },
  {
   "property": "C72",
   "status": "proved",
   "theorems": [
    "C72_jax_round_trip",
    "C72_precompute_round_trip"
   ],
   "note": "As C70 and C71. The precompute kernels are those of spin 0, so that the accuracy hypothesis is realistic for spin 0 only."
  },
  {
   "property": "C73",
   "status": "proved",
   "theorems": [
    "C73_same_analysis_coefficients",
    "C73_same_synthesis_coefficients"
   ],
   "note": "As C71. Wavelet coefficients can differ in the sign of a zero: JAX adds to zeros, base.py assigns."
  },
  {
   "property": "C74",
   "status": "proved",
   "theorems": [
    "C74_torch_analysis_coefficients",
    "C74_ssht_analysis_coefficients",
    "C74_torch_synthesis_coefficients",
    "C74_ssht_synthesis_coefficients"
   ],
   "note": "As C69. Torch evaluates operation by operation; SSHT uses the multiresolution band-limits and samplings MW, MWSS, DH, GL. With reality set, SSHT reads the real part of the signal: the signal given is taken to be real."
  },
  {
   "property": "C75",
   "status": "proved",
   "theorems": [
    "C75_torch_round_trip",
    "C75_ssht_round_trip"
   ],
   "note": "As C70 and C74. The precompute kernels are those of spin 0, so that the accuracy hypothesis for torch is realistic for spin 0 only."
  },
  {
   "property": "C76",
   "status": "proved",
   "theorems": [
    "C76_jax_wavelet_coefficients",
    "C76_precompute_wavelet_coefficients",
    "C76_torch_wavelet_coefficients",
    "C76_ssht_wavelet_coefficients"
   ],
   "note": "As C74. For precompute and torch the kernels of a smaller top scale are not those of the scales (the kernel list repeats its last entry), so only the default top scale is claimed."
  },
  {
   "property": "C77",
   "status": "proved",
   "theorems": [
    "C77_same_analysis_coefficients",
    "C77_same_synthesis_coefficients"
   ],
   "note": "As C71 and C74; einsum is taken to add up in the same order in the backends compared. Agreement with the base transforms is C73."
  },
  {
   "property": "C78",
   "status": "proved",
   "theorems": [
    "C78_axisymmetric_filters",
    "C78_directional_component",
    "C78_library_independent",
    "C78_directional_filters",
    "C78_spin_lowered_raises",
    "C78_admissible",
    "C78_round_trip"
   ],
   "note": "jax_enable_x64 on; XLA taken to evaluate the operations one by one, with correctly rounded division and square root. N <= 41 as in C65."
  },
  {
   "property": "C79",
   "status": "proved",
   "theorems": [
    "C79_axisymmetric_filters",
    "C79_default_dilation",
    "C79_scaling_functions",
    "C79_wavelets",
    "C79_default_dilation_wavelets"
   ],
   "note": "N <= 41 for the wavelets, as in C65. The remaining difference, a value copied where the quadrature overshoots 1, is C64/C66's quadrature term."
  },
  {
   "property": "C80",
   "status": "proved",
   "theorems": [
    "C80_looped_analysis_coefficients",
    "C80_looped_synthesis_coefficients",
    "C80_looped_round_trip",
    "C80_looped_round_trip_real"
   ],
   "note": "As C69 and C70. In the synthesis of a real signal only the orders m >= 0 are claimed, because the code gets the others wrong (C27); the same holds for the round trip of a real signal. The looped filters carry three quadrature errors instead of one."
  },
  {
   "property": "C81",
   "status": "proved",
   "theorems": [
    "C81_flag_off",
    "C81_flag_on",
    "C81_pixels"
   ],
   "note": "The modulus (np.abs of complex128, a hypot) is a parameter with a stated accuracy; a correctly rounded one is shown to meet it. The error of the pixel itself (e) is that of s2fft's inverse Wigner transform and is a hypothesis."
  },
  {
   "property": "C82",
   "status": "proved",
   "theorems": [
    "C82_multiresolution_storage",
    "C82_default_dilation",
    "C82_full_resolution_storage"
   ],
   "note": "Counts entries of the arrays construct_f allocates, not bytes. HEALPix maps have 12 nside^2 pixels at every scale, so no such bound holds for them."
  },
  {
   "property": "C83",
   "status": "proved",
   "theorems": [
    "C83_jax_directions_overflow",
    "C83_jax_directions_iff",
    "C83_jax_result_is_numpy_result",
    "C83_binary64"
   ],
   "note": "That JAX raises OverflowError when a Python integer operand exceeds int64 is a fact about JAX (64-bit mode, as the tests set it) and part of the model; in 32-bit mode the limit would be 2**31. The float overflow of numpy beyond N = 1024 is not modelled in exact arithmetic; C87 has it in binary64."
  },
  {
   "property": "C84",
   "status": "proved",
   "theorems": [
    "C84_generating_function",
    "C84_scaling_filter",
    "C84_wavelet_filters",
    "C84_wavelet_filters_looped",
    "C84_directional_filters",
    "C84_binary64_generating_function",
    "C84_binary64_wavelet_filters",
    "C84_binary64_scaling_filter"
   ],
   "note": "The looped filters are covered where the generating function does not decrease with the scale (elsewhere the two loops differ, see C08). Below degree N the directional component depends on the degree, so the directional statement starts at N. In binary64 only lam = 2 is treated."
  },
  {
   "property": "C85",
   "status": "proved",
   "theorems": [
    "C85_round_trip",
    "C85_field",
    "C85_base",
    "C85_every",
    "C85_exact"
   ],
   "note": "The relative error of s2fft's HEALPix transforms is a hypothesis; no value of eps is claimed. The error is measured in the norm of coefficients, over the energies of C31. C85_base and C85_every state totality for the vectorised numpy transforms and the four backends; about the looped numpy transforms the theorems speak when they return."
  },
  {
   "property": "C86",
   "status": "proved",
   "theorems": [
    "C86_binomial",
    "C86_component",
    "C86_component_normalised",
    "C86_coefficients",
    "C86_filters_admissible",
    "C86_finite"
   ],
   "note": "Beyond 41 directions log-gamma no longer determines the binomial coefficients exactly (C65, C66), so the error grows to 2^-30. The accuracy of scipy's loggamma and numpy's exp on this range is a hypothesis. spin0 = 0 only."
  },
  {
   "property": "C87",
   "status": "proved",
   "theorems": [
    "C87_component_overflow",
    "C87_numpy_directions_overflow",
    "C87_numpy_directions_iff"
   ],
   "note": "That dividing a numpy float by a Python integer converts the integer to a float, with OverflowError if it is too large, is part of the model (pyfloat)."
  },
  {
   "property": "C88",
   "status": "proved",
   "theorems": [
    "C88_component_bits",
    "C88_component",
    "C88_component_normalised",
    "C88_coefficients",
    "C88_admissible",
    "C88_agreement",
    "C88_returned"
   ],
   "note": "Extends C78 (bit-for-bit, N <= 41) to every size for which JAX does not overflow (C83). The accuracy of JAX's gammaln and exp is a hypothesis. spin0 = 0 only: JAX raises otherwise (C78)."
  },
  {
   "property": "C89",
   "status": "proved",
   "theorems": [
    "C89_generating_function_never_raises",
    "C89_entries",
    "C89_first_overflow",
    "C89_filters_infinite",
    "C89_directional",
    "C89_filters_never_raise",
    "C89_filters_finite",
    "C89_looped_filters_finite",
    "C89_directional_filters_return",
    "C89_jax_directional_filters_return",
    "C89_directional_filters_finite",
    "C89_jax_directional_filters_finite",
    "C89_jax_directional",
    "C89_energy"
   ],
   "note": "A defect of the library: the integrand is evaluated beyond its support, where exp receives a huge positive argument. exp and the powers of 3 are hypotheses (accurate_exp, overflowing_exp, powers_of_three). J stands for the value of samples.j_max, as in the other binary64 claims."
  },
  {
   "property": "C90",
   "status": "proved",
   "theorems": [
    "C90_jax_wavelet_coefficients",
    "C90_precompute_wavelet_coefficients",
    "C90_torch_wavelet_coefficients",
    "C90_ssht_wavelet_coefficients",
    "C90_looped_filters",
    "C90_looped_analysis",
    "C90_looped_synthesis",
    "C90_analysis",
    "C90_synthesis",
    "C90_jax_analysis",
    "C90_jax_synthesis",
    "C90_precompute_analysis",
    "C90_precompute_synthesis",
    "C90_torch_analysis",
    "C90_torch_synthesis",
    "C90_ssht_analysis",
    "C90_ssht_synthesis"
   ],
   "note": "Consequence of C89 (a defect of the library). Says what is handed to s2fft or SSHT; what these do with non-finite coefficients is not modelled."
  },
  {
   "property": "C91",
   "status": "proved",
   "theorems": [
    "C91_generating_function_never_raises",
    "C91_entries",
    "C91_filters_never_raise",
    "C91_filters_finite",
    "C91_looped_filters_finite",
    "C91_directional_filters_return",
    "C91_jax_directional_filters_return",
    "C91_directional_filters_finite",
    "C91_jax_directional_filters_finite",
    "C91_energy",
    "C91_directional_energy"
   ],
   "note": "Extends C46 (normalisation at lam = 4) to every entry and every filter. exp and the powers of 4 are hypotheses (accurate_exp, powers_of_four). J stands for the value of samples.j_max, as in the other binary64 claims."
  }
 ]
}