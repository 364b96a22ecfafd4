{
 "claims": [
  {
   "property": "C01",
   "status": "proved",
   "theorems": [
    "C01_fit_tensor_is_simulation_covariance",
    "C01_mann_kernel_matches_calibration"
   ],
   "note": "All six entries for every lifetime value, and end to end with the two code paths for Mann's lifetime (any hypergeometric function). Over the reals; k1 = 0 is excluded because calibration never evaluates it."
  },
  {
   "property": "C02",
   "status": "proved",
   "theorems": [
    "C02_drd_kernel_divergence_free",
    "C02_mann_kernel_divergence_free"
   ],
   "note": "All wave vectors including the degenerate ones, Mann and DRD kernels."
  },
  {
   "property": "C03",
   "status": "proved",
   "theorems": [
    "C03_tensor_positive_semidefinite",
    "C03_tensor_schwarz"
   ],
   "note": "Quadratic form and Cauchy-Schwarz for the unclipped tensor."
  },
  {
   "property": "C04",
   "status": "proved",
   "theorems": [
    "C04_integrated_cross_spectra_vanish",
    "C04_tensor_mirror"
   ],
   "note": "Pointwise symmetry and exact vanishing of the integrated unclipped uv and vw spectra on the symmetric grid."
  },
  {
   "property": "C05",
   "status": "partial",
   "theorems": [
    "C05_uv_vw_spurious_level",
    "C05_uv_vw_vanish_refuted"
   ],
   "note": "False of the code for every model: the clipping makes both spectra strictly positive; explicit lower bound."
  },
  {
   "property": "C06",
   "status": "proved",
   "theorems": [
    "C06_kernel_isotropic_limit",
    "C06_tensor_isotropic_limit"
   ],
   "note": "Tensor and kernel."
  },
  {
   "property": "C07",
   "status": "partial",
   "theorems": [
    "C07_default_rows_even",
    "C07_low_coefficients_partial",
    "C07_low_kernel_hermitian",
    "C07_low_refuted",
    "C07_mann_kernel_hermitian",
    "C07_nothing_dropped_odd_partial",
    "C07_refuted",
    "C07_sheared_kernel_hermitian",
    "C07_vk_kernel_hermitian"
   ],
   "note": "The kernel functions are Hermitian (Mann, von Karman, any even lifetime), and on grids with odd extents nothing is dropped. False of the code on grids with an even number of rows, which is the default: the mode n/2 is represented by -n/2 only, the kernel is not Hermitian there, and an imaginary part is dropped (C07_refuted, C07_default_rows_even). The 2D kernels are Hermitian as well; on their (always even) grids exactly the coefficients at the highest lateral (u) or streamwise (v) wave number are dropped, and these are not zero (C07_low_coefficients_partial, C07_low_refuted)."
  },
  {
   "property": "C08",
   "status": "proved",
   "theorems": [
    "C08_vk_kernel_covariance",
    "C08_vk_kernel_divergence_free"
   ],
   "note": "All wave vectors."
  },
  {
   "property": "C09",
   "status": "proved",
   "theorems": [
    "C09_auto_spectra_nonnegative",
    "C09_one_point_spectra_linear",
    "C09_tensor_linear"
   ],
   "note": "Pointwise and integrated linearity, non-negativity."
  },
  {
   "property": "C10",
   "status": "proved",
   "theorems": [
    "C10_energy_positive_below_inertial",
    "C10_energy_spectra_agree",
    "C10_ratio_increasing",
    "C10_ratio_towards_one"
   ],
   "note": "Equality, positivity, bound, strict monotonicity of the ratio and explicit rate of convergence to 1."
  },
  {
   "property": "C11",
   "status": "proved",
   "theorems": [
    "C11_lifetime_ignores_signs"
   ],
   "note": "All five lifetime types, any weights and activations."
  },
  {
   "property": "C12",
   "status": "proved",
   "theorems": [
    "C12_rational_head_bounded",
    "C12_rational_head_lower",
    "C12_rational_head_positive",
    "C12_rational_head_two_thirds",
    "C12_rational_head_zero_argument"
   ],
   "note": "Positive argument through extended reals; value at zero argument is +inf for nu < 2/3."
  },
  {
   "property": "C13",
   "status": "proved",
   "theorems": [
    "C13_constant_lifetime",
    "C13_linear_in_time_scale",
    "C13_two_thirds_homogeneous_in_L",
    "C13_two_thirds_homogeneous_in_k"
   ],
   "note": "Homogeneity in k and L, linearity in T for every type, constant lifetime."
  },
  {
   "property": "C14",
   "status": "partial",
   "theorems": [
    "C14_delivered_partial",
    "C14_fit_partial",
    "C14_mann_approximation_factor",
    "C14_mann_approximation_scales_once_refuted",
    "C14_time_scale_refuted"
   ],
   "note": "False of the code (scales are applied twice): witness, and the exact spurious factor T*L^alpha for every power law; for every lifetime function the time scale enters squared (C14_time_scale_refuted), and the delivered power law exceeds the best one by T*L^a, in geometric mean over the fitted wave numbers and exactly after removal of that factor (C14_fit_partial); C14_delivered_partial connects this with the evaluated lifetime."
  },
  {
   "property": "C15",
   "status": "proved",
   "theorems": [
    "C15_calibration_scales",
    "C15_calibration_scales_rejected"
   ],
   "note": "Including the rejection of non-positive scales."
  },
  {
   "property": "C16",
   "status": "partial",
   "theorems": [
    "C16_standalone_scales_only_unit",
    "C16_standalone_scales_refuted"
   ],
   "note": "False of the code (log10 on entry, exp on exit): witness, and proof that only unit scales survive."
  },
  {
   "property": "C17",
   "status": "proved",
   "theorems": [
    "C17_grid_sound",
    "C17_rule_exact_on_bilinear",
    "C17_rule_linear",
    "C17_rule_monotone",
    "C17_rule_reflection_invariant"
   ],
   "note": "Grid shape, order, symmetry, end points; rule linear, monotone, exact on bilinear integrands, reflection invariant."
  },
  {
   "property": "C18",
   "status": "proved",
   "theorems": [
    "C18_auto_spectra_positive",
    "C18_output_rows_positive"
   ],
   "note": "Explicit positive lower bound and the three rows of the output."
  },
  {
   "property": "C19",
   "status": "proved",
   "theorems": [
    "C19_coherence_in_unit_interval",
    "C19_every_evaluation"
   ],
   "note": "On every increasing grid, and for every evaluation of a calibration problem after any history."
  },
  {
   "property": "C20",
   "status": "proved",
   "theorems": [
    "C20_network_block_length",
    "C20_order_of_entries",
    "C20_read_write",
    "C20_write_read",
    "C20_wrong_length_raises"
   ],
   "note": "Round trip both ways, rejection of wrong lengths with unchanged state, layout of the vector, and the length of the network block, for every architecture."
  },
  {
   "property": "C21",
   "status": "proved",
   "theorems": [
    "C21_network_accepts_documented",
    "C21_network_layers_chain",
    "C21_network_parameter_count"
   ],
   "note": "Acceptance, rejection with ValueError, chain, count."
  },
  {
   "property": "C22",
   "status": "proved",
   "theorems": [
    "C22_forward_shape_correct",
    "C22_zero_weights_rational_law"
   ],
   "note": "Shape correctness for every accepted specification and zero-weight law."
  },
  {
   "property": "C23",
   "status": "partial",
   "theorems": [
    "C23_calibrate_without_learnable_spectrum_refuted",
    "C23_learnable_spectrum_no_attribute_error",
    "C23_no_epochs_no_failure"
   ],
   "note": "The full statement is false of the code: C23_calibrate_without_learnable_spectrum_refuted (the loop reads p_exponent, which exists only for a learnable spectrum). Companions: zero epochs return; with a learnable spectrum this failure never happens."
  },
  {
   "property": "C24",
   "status": "proved",
   "theorems": [
    "C24_at_most_nepochs_steps",
    "C24_nonfinite_loss_raises",
    "C24_stops_and_returns_positive_scales"
   ],
   "note": "For every optimiser (arbitrary adaptive sequence of closure evaluations), every scheduler and every problem."
  },
  {
   "property": "C25",
   "status": "proved",
   "theorems": [
    "C25_failure_writes_nothing",
    "C25_reload_restores",
    "C25_saved_file_holds_the_problem",
    "C25_usable_directory_succeeds"
   ],
   "note": "Pickling itself is trusted; reload follows the example script with the missing integration settings supplied."
  },
  {
   "property": "C26",
   "status": "partial",
   "theorems": [
    "C26_distinct_type_or_directory",
    "C26_same_directory_refuted"
   ],
   "note": "The full statement is false of the code: C26_same_directory_refuted (file name depends only on directory and lifetime type). Companion: different directories or types keep both files."
  },
  {
   "property": "C27",
   "status": "proved",
   "theorems": [
    "C27_misfit_otherwise",
    "C27_misfit_proper",
    "C27_misfit_raises_exactly",
    "C27_misfit_scale_invariant",
    "C27_misfit_symmetric"
   ],
   "note": "Proved for all finite model/data vectors: value, zero set, exact raising condition, +inf case, scale invariance and symmetry."
  },
  {
   "property": "C28",
   "status": "proved",
   "theorems": [
    "C28_first_order_penalty",
    "C28_regulariser",
    "C28_second_order_penalty"
   ],
   "note": "Both penalties and the regulariser, for every increasing positive grid and nonzero curves (length >= 2, >= 3)."
  },
  {
   "property": "C29",
   "status": "proved",
   "theorems": [
    "C29_histories_are_successful_evaluations",
    "C29_raising_leaves_state",
    "C29_returned_total"
   ],
   "note": "Histories equal the columns of the successful evaluations for every history."
  },
  {
   "property": "C30",
   "status": "proved",
   "theorems": [
    "C30_ratios_are_shares",
    "C30_ratios_partition_unity"
   ],
   "note": "For every history whose terms are finite; the shares are those of the running averages."
  },
  {
   "property": "C31",
   "status": "proved",
   "theorems": [
    "C31_average_within_range",
    "C31_running_averages"
   ],
   "note": "Every running average equals the exponential moving average of its history, which stays within range."
  },
  {
   "property": "C32",
   "status": "proved",
   "theorems": [
    "C32_advice_defined",
    "C32_advice_never_increases",
    "C32_no_advice_before_window",
    "C32_stagnation_rule",
    "C32_three_phase_ends",
    "C32_three_phase_non_increasing",
    "C32_three_phase_range",
    "C32_window_one_asserts"
   ],
   "note": "Advice for window >= 2 (window 1 hits the assertion, C32_window_one_asserts); schedule theorems from the calibration model."
  },
  {
   "property": "C33",
   "status": "proved",
   "theorems": [
    "C33_friction_velocity",
    "C33_one_matrix_per_wave_number",
    "C33_published_formulas",
    "C33_signs",
    "C33_similarity"
   ],
   "note": "Signs, published formulas, friction-velocity scaling, similarity in k1*zref, one matrix per wave number."
  },
  {
   "property": "C34",
   "status": "proved",
   "theorems": [
    "C34_isotropy",
    "C34_length_scale",
    "C34_magnitude",
    "C34_one_matrix_per_wave_number",
    "C34_physical",
    "C34_published_formulas",
    "C34_zero_length_raises"
   ],
   "note": "Isotropic relation stated with a derivative of the data as a function of wave number; magnitude and length-scale laws; L = 0 raises."
  },
  {
   "property": "C35",
   "status": "partial",
   "theorems": [
    "C35_missing_column",
    "C35_missing_file",
    "C35_valid_file_refuted"
   ],
   "note": "False of the code (the constructor reads an attribute that is never assigned): proved for every file. The error cases of the statement hold and are proved exactly."
  },
  {
   "property": "C36",
   "status": "partial",
   "theorems": [
    "C36_construction_refuted",
    "C36_wrong_length"
   ],
   "note": "False of the code (the property is read before it is assigned): proved for all arguments. Wrong-length dimensions in a list or array raise ValueError, exactly then."
  },
  {
   "property": "C37",
   "status": "proved",
   "theorems": [
    "C37_block_shape",
    "C37_buffers_cover",
    "C37_concrete_sampler",
    "C37_concrete_usable"
   ],
   "note": "Every constructed generator with positive dimensions and scales, every call history; also exact size of buffer and margins. The sampler is any shape-preserving map."
  },
  {
   "property": "C38",
   "status": "partial",
   "theorems": [
    "C38_refuted"
   ],
   "note": "False of the code for every grid: with time scale 0 the buffer slice is empty, so every call asking for a block raises."
  },
  {
   "property": "C39",
   "status": "proved",
   "theorems": [
    "C39_content",
    "C39_noise_is_one_stream",
    "C39_noise_of_last_block"
   ],
   "note": "Content of the total field after every successful call history (no low-frequency field), and the stored noise after every history, successful or not."
  },
  {
   "property": "C40",
   "status": "proved",
   "theorems": [
    "C40_appends",
    "C40_rows"
   ],
   "note": "Every history, including calls that raise part way."
  },
  {
   "property": "C41",
   "status": "partial",
   "theorems": [
    "C41_partial",
    "C41_refuted"
   ],
   "note": "False of the code: the block of noise is drawn before the arguments are checked. Witness with a different next field; the stored field is unchanged and exactly one block of noise is consumed."
  },
  {
   "property": "C42",
   "status": "proved",
   "theorems": [
    "C42_rejection",
    "C42_zero_block"
   ],
   "note": "Both directions for nonzero blocks, and all-zero blocks are always rejected."
  },
  {
   "property": "C43",
   "status": "proved",
   "theorems": [
    "C43_energy_and_profile",
    "C43_magnitude_free"
   ],
   "note": "Exact energy, invariance under positive rescaling, profile added to the first component only and depending on height only."
  },
  {
   "property": "C44",
   "status": "proved",
   "theorems": [
    "C44_ground",
    "C44_increasing",
    "C44_reference"
   ],
   "note": "All positive arguments."
  },
  {
   "property": "C45",
   "status": "partial",
   "theorems": [
    "C45_refuted"
   ],
   "note": "False of the code for all arguments: the value at the reference height is strictly larger than the reference speed."
  },
  {
   "property": "C46",
   "status": "proved",
   "theorems": [
    "C46_ground",
    "C46_increasing",
    "C46_near_target",
    "C46_reversed_below_roughness"
   ],
   "note": "Also: with reference height below the roughness length the profile is negative."
  },
  {
   "property": "C47",
   "status": "proved",
   "theorems": [
    "C47_affine",
    "C47_linear",
    "C47_profile_blind",
    "C47_rejection"
   ],
   "note": "All sizes, nonzero spacings; rejection iff."
  },
  {
   "property": "C48",
   "status": "proved",
   "theorems": [
    "C48_grid_only",
    "C48_linear",
    "C48_real",
    "C48_roll",
    "C48_shift",
    "C48_zero"
   ],
   "note": "Function-level statements for every grid and kernel, and on arrays for rolls along x; the real field equals the full inverse transform whenever the kernel is Hermitian on the grid."
  },
  {
   "property": "C49",
   "status": "partial",
   "theorems": [
    "C49_kernels_solenoidal",
    "C49_odd_grids_partial",
    "C49_refuted",
    "C49_regular_modes_partial"
   ],
   "note": "False of the code as stated: on every grid with an even number of rows (the default) some noise gives a von Karman field with nonzero divergence at a Nyquist mode (C49_refuted). True at every mode without a Nyquist index, for every solenoidal kernel (all kernels of the package), hence everywhere on odd grids."
  },
  {
   "property": "C50",
   "status": "proved",
   "theorems": [
    "C50_seed"
   ],
   "note": "Every seed, world state, call history."
  },
  {
   "property": "C51",
   "status": "partial",
   "theorems": [
    "C51_global_state_advances",
    "C51_partial",
    "C51_refuted"
   ],
   "note": "False of the code: the low-frequency noise is drawn from the process-wide generator, so equal seeds give different fields (C51_refuted). Seed and global state together determine the field (C51_partial); constructing a generator advances the global state (C51_global_state_advances)."
  },
  {
   "property": "C52",
   "status": "proved",
   "theorems": [
    "C52_grid",
    "C52_only_positive"
   ],
   "note": "For all positive lengths; the consistency checks never fail. A configuration with non-positive factors is rejected as soon as 5 L exceeds the tolerance 1e-9 (C52_only_positive)."
  },
  {
   "property": "C53",
   "status": "proved",
   "theorems": [
    "C53_any_sizes",
    "C53_rejects_small",
    "C53_window"
   ],
   "note": "For every configuration with positive lengths and every noise; extraction for arbitrary sizes, with ValueError exactly when the window does not fit."
  },
  {
   "property": "C54",
   "status": "partial",
   "theorems": [
    "C54_equal_spacing_partial",
    "C54_positions_partial",
    "C54_refuted"
   ],
   "note": "False of the code for unequal spacings: samples are computed with the smaller spacing in both directions and labelled with the user's spacings; for no offset do they agree for all noise (C54_refuted). True, up to one offset fixed by the configuration, for equal spacings."
  },
  {
   "property": "C55",
   "status": "partial",
   "theorems": [
    "C55_even_amplitude",
    "C55_field_partial",
    "C55_kernel",
    "C55_refuted",
    "C55_zero_mean",
    "C55_zero_mode"
   ],
   "note": "Kernel statements and zero mean proved in full. The delivered field has nonzero horizontal divergence at the highest streamwise wave number of the (even) grid (C55_refuted); it is divergence-free at every other mode (C55_field_partial)."
  },
  {
   "property": "C56",
   "status": "proved",
   "theorems": [
    "C56_before_generate",
    "C56_bilinear_formula",
    "C56_exact_on_bilinear",
    "C56_nodes",
    "C56_range",
    "C56_surrounding_nodes",
    "C56_zero_outside"
   ],
   "note": "Before generate the interpolation raises RuntimeError."
  },
  {
   "property": "C57",
   "status": "partial",
   "theorems": [
    "C57_positions_partial",
    "C57_refuted",
    "C57_within_a_call_partial"
   ],
   "note": "False of the code: each call restarts the low-frequency field at x = 0. Within one call positions are consecutive."
  },
  {
   "property": "C58",
   "status": "partial",
   "theorems": [
    "C58_estimate_partial",
    "C58_non_negative",
    "C58_refuted",
    "C58_sum_rule_partial"
   ],
   "note": "Non-negativity proved. The highest wave number is reported with value 0 although its mode carries energy (C58_refuted); all positive wave numbers below it receive the energy of their mode (C58_estimate_partial), the exact balance with the variance is C58_sum_rule_partial."
  },
  {
   "property": "C59",
   "status": "partial",
   "theorems": [
    "C59_axes",
    "C59_cells_refuted",
    "C59_incomplete_files",
    "C59_one_based_file_refuted",
    "C59_separation_major_files"
   ],
   "note": "The full statement is false of the code: C59_cells_refuted (complete files in any order other than separation-major) and C59_one_based_file_refuted. Companions: complete separation-major files and incomplete zero-based files are read correctly; axes are correct."
  },
  {
   "property": "C60",
   "status": "partial",
   "theorems": [
    "C60_drawn_given",
    "C60_drawn_stored_partial",
    "C60_drawn_stored_refuted",
    "C60_given_data_panels",
    "C60_stored_data_panels_fewer",
    "C60_stored_data_panels_refuted"
   ],
   "note": "The full statement is false of the code: C60_stored_data_panels_refuted (with stored data the uv and vw panels are exchanged). Companions: data passed to plot, and 3 or 4 components, are drawn correctly."
  },
  {
   "property": "C61",
   "status": "partial",
   "theorems": [
    "C61_simulated_lifetime_is_fitted_refuted",
    "C61_simulated_lifetime_unit_length_scale"
   ],
   "note": "False of the code (network evaluated without the fitted length scale): witness; true when the length scale is 1."
  },
  {
   "property": "C62",
   "status": "partial",
   "theorems": [
    "C62_partial",
    "C62_refuted"
   ],
   "note": "False of the code for every layer above the ground; exact ratio 1 + 2^-level."
  },
  {
   "property": "C63",
   "status": "proved",
   "theorems": [
    "C63_bijection",
    "C63_components",
    "C63_format",
    "C63_grid",
    "C63_magnitude"
   ],
   "note": "With reshape=True (default). Layout of the figure not modelled."
  },
  {
   "property": "C64",
   "status": "proved",
   "theorems": [
    "C64_selected_separations"
   ],
   "note": "For every number of separations."
  },
  {
   "property": "C65",
   "status": "proved",
   "theorems": [
    "C65_kernel_initial_state",
    "C65_kernel_solves_rapid_distortion"
   ],
   "note": "Differential equation and initial condition."
  },
  {
   "property": "C66",
   "status": "partial",
   "theorems": [
    "C66_built_partial",
    "C66_settings_ignored",
    "C66_settings_reach_network_refuted"
   ],
   "note": "Full statement false of the code: the list of widths and the activations are ignored. C66_built_partial: the number of layers, the single width and the request to learn the exponent do reach the network."
  },
  {
   "property": "C67",
   "status": "partial",
   "theorems": [
    "C67_coherence_memoryless_refuted",
    "C67_memoryless_with_own_grid"
   ],
   "note": "False of the code for every mirror-symmetric model (cached grid of the first evaluation); true for modules built with use_coherence=True."
  },
  {
   "property": "C68",
   "status": "proved",
   "theorems": [
    "C68_calls_compose"
   ],
   "note": "Including calls that raise."
  },
  {
   "property": "C69",
   "status": "proved",
   "theorems": [
    "C69_no_seam",
    "C69_periodic_filters"
   ],
   "note": "Any sampler local within the buffer; periodic filters of bounded support are such samplers."
  },
  {
   "property": "C70",
   "status": "proved",
   "theorems": [
    "C70_fitted_tensor_divergence_free"
   ],
   "note": "All wave vectors with k1 <> 0."
  },
  {
   "property": "C71",
   "status": "partial",
   "theorems": [
    "C71_kaimal_refuted",
    "C71_von_karman"
   ],
   "note": "False for Kaimal data at every wave number; true for von Karman data."
  },
  {
   "property": "C72",
   "status": "partial",
   "theorems": [
    "C72_drd_amplitude_factor",
    "C72_drd_amplitude_refuted",
    "C72_factor_is_one_iff"
   ],
   "note": "False of the code: exact spurious factor 4 pi L^(-5/3), equal to 1 for a single length scale only."
  },
  {
   "property": "C73",
   "status": "partial",
   "theorems": [
    "C73_get_div_available_refuted"
   ],
   "note": "False of the code: get_div reads an attribute no method creates, so it raises AttributeError after every history."
  },
  {
   "property": "C74",
   "status": "partial",
   "theorems": [
    "C74_power_spectra_repeatable_refuted",
    "C74_repeated_calls_decay"
   ],
   "note": "False of the code: the stored energy is divided by 4 pi at each call."
  },
  {
   "property": "C75",
   "status": "partial",
   "theorems": [
    "C75_coherence_grid_honoured_refuted"
   ],
   "note": "False of the code: the problem never enables the configured grid; the fixed grid is used."
  },
  {
   "property": "C76",
   "status": "proved",
   "theorems": [
    "C76_clipping_error_bounded"
   ],
   "note": "All inputs."
  },
  {
   "property": "C77",
   "status": "proved",
   "theorems": [
    "C77_tensor_similarity"
   ],
   "note": "All entries."
  },
  {
   "property": "C78",
   "status": "partial",
   "theorems": [
    "C78_regulariser_without_network_refuted"
   ],
   "note": "The full statement is false of the code: C78_regulariser_without_network_refuted shows every evaluation fails, because calibration passes the Python float 0.0, which has no square()."
  },
  {
   "property": "C79",
   "status": "proved",
   "theorems": [
    "C79_first_call_normalises",
    "C79_scales_bounded",
    "C79_scales_kept_between_updates"
   ],
   "note": "For every stored state; compute_loss_scales has no caller in the repository."
  },
  {
   "property": "C80",
   "status": "proved",
   "theorems": [
    "C80_loss_info_is_last_evaluation"
   ],
   "note": "For every history."
  },
  {
   "property": "C81",
   "status": "proved",
   "theorems": [
    "C81_coherence_misfit",
    "C81_missing_data_raises"
   ],
   "note": "For every grid and data; NaN anywhere raises."
  },
  {
   "property": "C82",
   "status": "proved",
   "theorems": [
    "C82_training_compares_like_with_like"
   ],
   "note": "For every model and number of components."
  },
  {
   "property": "C83",
   "status": "partial",
   "theorems": [
    "C83_gradient_with_coherence_refuted",
    "C83_gradient_without_coherence",
    "C83_value"
   ],
   "note": "The full statement is false of the code: C83_gradient_with_coherence_refuted (the coherence term is computed under no_grad, so its derivative is missing). Companion: without coherence data the gradient is right."
  },
  {
   "property": "C84",
   "status": "partial",
   "theorems": [
    "C84_saved_file_determines_spectra_refuted"
   ],
   "note": "The full statement is false of the code: C84_saved_file_determines_spectra_refuted (the integration settings are not saved)."
  },
  {
   "property": "C85",
   "status": "partial",
   "theorems": [
    "C85_adaptive_schedule_reacts_refuted",
    "C85_supplied_history",
    "C85_supplied_history_bounded"
   ],
   "note": "The full statement is false of the code: C85_adaptive_schedule_reacts_refuted (the attribute the history is read from does not exist, so no history is recorded). Companions: behaviour for supplied histories."
  },
  {
   "property": "C86",
   "status": "partial",
   "theorems": [
    "C86_kaimal_six_refuted",
    "C86_three_components_finite",
    "C86_von_karman_refuted"
   ],
   "note": "False of the code: with six components on Kaimal data, and with four or six on von Karman data, calibration raises for every optimiser, schedule and starting point. With three components the misfit is finite."
  },
  {
   "property": "C87",
   "status": "proved",
   "theorems": [
    "C87_model_coherence_per_frequency"
   ],
   "note": "For every list of frequencies."
  },
  {
   "property": "C88",
   "status": "partial",
   "theorems": [
    "C88_noise_initialisation_refuted"
   ],
   "note": "The full statement is false of the code: C88_noise_initialisation_refuted (reads OPS.Corrector, which does not exist)."
  },
  {
   "property": "C89",
   "status": "proved",
   "theorems": [
    "C89_constructor_accepts",
    "C89_constructor_rejects_components",
    "C89_constructor_rejects_scales",
    "C89_log_scales"
   ],
   "note": "All integers and reals."
  },
  {
   "property": "C90",
   "status": "partial",
   "theorems": [
    "C90_parameter_sensitivity_refuted"
   ],
   "note": "The full statement is false of the code: C90_parameter_sensitivity_refuted (backward on a tensor computed under no_grad)."
  },
  {
   "property": "C91",
   "status": "proved",
   "theorems": [
    "C91_kaimal_coherent"
   ],
   "note": "All positive wave numbers; weighted AM-GM below n = 1/8 and a polynomial bound above."
  },
  {
   "property": "C92",
   "status": "partial",
   "theorems": [
    "C92_infinite_refuted",
    "C92_partial",
    "C92_refuted"
   ],
   "note": "False of the code: NaN for equal reference height and roughness length, infinity for negative exponents; true otherwise."
  },
  {
   "property": "C93",
   "status": "partial",
   "theorems": [
    "C93_only_for_equal_energies",
    "C93_refuted"
   ],
   "note": "False of the code: each block is divided by its own root-mean-square; a common factor exists only when all blocks have equal energy."
  },
  {
   "property": "C94",
   "status": "proved",
   "theorems": [
    "C94_covariance",
    "C94_odd_grids",
    "C94_stationary"
   ],
   "note": "Noise of unit variance is represented by its impulse responses: the covariance is the sum over all noise values of the products of contributions. The factor 1/V differs from the Riemann sum of the spectral tensor by (2 pi)^3 and the noise amplitude; the later normalisation of a block removes any constant."
  },
  {
   "property": "C95",
   "status": "partial",
   "theorems": [
    "C95_factor",
    "C95_refuted"
   ],
   "note": "False of the code: for every grid with more than one node the two methods differ by the factor sqrt(N) and by conjugation of the spectrum (C95_factor, C95_refuted)."
  },
  {
   "property": "C96",
   "status": "partial",
   "theorems": [
    "C96_refuted"
   ],
   "note": "False of the code: the interpolation grid ends one spacing before the requested length (linspace without end point), and the remaining strip is filled with zeros (C96_refuted)."
  },
  {
   "property": "C97",
   "status": "proved",
   "theorems": [
    "C97_covariance",
    "C97_integrand_is_model_spectrum",
    "C97_kernel_matches_analytical"
   ],
   "note": "Guards of the code appear as hypotheses: L <= 1e6, wave numbers at least 1e-10, cell area at least 1e-16, angle away from the axes by 1/100 for the covariance. The modes dropped by C07_low_coefficients_partial are missing from the sums."
  },
  {
   "property": "C98",
   "status": "proved",
   "theorems": [
    "C98_shape",
    "C98_variance"
   ],
   "note": "The quadrature is an arbitrary functional that is homogeneous; the numerical accuracy of scipy's quad is not modelled."
  },
  {
   "property": "C99",
   "status": "partial",
   "theorems": [
    "C99_refuted",
    "C99_short_fields_raise",
    "C99_values_interleaved"
   ],
   "note": "False of the code: with reshape=False the first three x-planes are plotted as the three components; IndexError for fewer than three planes, otherwise interleaved components and (for nx <> 3) a different number of values than positions."
  },
  {
   "property": "C100",
   "status": "partial",
   "theorems": [
    "C100_outcomes",
    "C100_refuted",
    "C100_vector_partial"
   ],
   "note": "False of the code: no documented method delivers an array over the grid for scalar fields (C100_refuted, outcomes in C100_outcomes); for vector fields exactly vf_fftw does (C100_vector_partial)."
  },
  {
   "property": "C101",
   "status": "partial",
   "theorems": [
    "C101_components_partial",
    "C101_given_noise_partial",
    "C101_refuted"
   ],
   "note": "False of the code: the default noise has no component axis (C101_refuted); noise of the full shape works (C101_given_noise_partial)."
  },
  {
   "property": "C102",
   "status": "partial",
   "theorems": [
    "C102_per_axis",
    "C102_refuted"
   ],
   "note": "True for one level per axis (C102_per_axis); for a scalar level true only on level 0 (C102_refuted)."
  },
  {
   "property": "C103",
   "status": "partial",
   "theorems": [
    "C103_partial",
    "C103_refuted"
   ],
   "note": "False of the code: the attribute `method` is assigned before the check (C103_refuted); later results do not change (C103_partial)."
  },
  {
   "property": "C104",
   "status": "partial",
   "theorems": [
    "C104_refuted"
   ],
   "note": "False of the code: the default None raises whatever the other arguments (C104_refuted)."
  },
  {
   "property": "C105",
   "status": "proved",
   "theorems": [
    "C105_given_noise",
    "C105_reseed",
    "C105_stream"
   ],
   "note": "The generator is an arbitrary state with an arbitrary one-draw function."
  },
  {
   "property": "C106",
   "status": "partial",
   "theorems": [
    "C106_per_axis",
    "C106_refuted"
   ],
   "note": "True for one level per axis; false for a scalar level (C106_refuted)."
  },
  {
   "property": "C107",
   "status": "partial",
   "theorems": [
    "C107_exact_partial",
    "C107_refuted"
   ],
   "note": "False of the code: every class other than LBFGS and Adam is silently replaced by Adam (C107_refuted); C107_exact_partial gives the exact set."
  },
  {
   "property": "C108",
   "status": "partial",
   "theorems": [
    "C108_bound_partial",
    "C108_refuted"
   ],
   "note": "False of the code for Adam: weight_decay=1e-5 is added to the gradient and normalised, so a stationary point is left with steps of the size of the learning rate (C108_refuted); the step is always below the learning rate (C108_bound_partial). Model: first step of torch.optim.Adam over the reals. The stopping rule of LBFGS is not modelled."
  },
  {
   "property": "C109",
   "status": "proved",
   "theorems": [
    "C109_range",
    "C109_schedule",
    "C109_start"
   ],
   "note": "For every optimiser behaviour; scheduler in the recursive form of CosineAnnealingLR over the reals."
  },
  {
   "property": "C110",
   "status": "partial",
   "theorems": [
    "C110_data_partial",
    "C110_factor_partial",
    "C110_refuted",
    "C110_units_partial"
   ],
   "note": "False of the code: model_vals is not divided by ustar**2 (C110_refuted, factor in C110_factor_partial); without the argument model and data are in the same units (C110_units_partial)."
  },
  {
   "property": "C111",
   "status": "partial",
   "theorems": [
    "C111_components_partial",
    "C111_flat_refuted",
    "C111_refuted",
    "C111_success_partial",
    "C111_wave_numbers_partial"
   ],
   "note": "False of the code: AttributeError before calibrate (C111_refuted), IndexError for a flat sequence (C111_flat_refuted); C111_success_partial is the exact success condition."
  },
  {
   "property": "C112",
   "status": "partial",
   "theorems": [
    "C112_initial_partial",
    "C112_refuted"
   ],
   "note": "False of the code: the model coherence is stored once, before training (C112_refuted, C112_initial_partial)."
  },
  {
   "property": "C113",
   "status": "proved",
   "theorems": [
    "C113_default_names",
    "C113_names",
    "C113_no_directory"
   ],
   "note": "Directory creation and the drawing itself are not modelled; the path is joined with '/' without normalisation. The sentence of the documentation naming the current working directory as default disagrees with its Raises section, which the code follows."
  },
  {
   "property": "C114",
   "status": "partial",
   "theorems": [
    "C114_fitted_refuted",
    "C114_refuted",
    "C114_sampler_partial"
   ],
   "note": "False of the code: every block is divided by its own root mean square, so generators differing only in energy_spectrum_scale, friction_velocity (or, for VK and Mann, reference_height; for DRD, the fitted magnitude) return identical arrays for every call sequence (C114_refuted, C114_fitted_refuted). The field before normalisation scales with the square root of the energy scale (C114_sampler_partial)."
  },
  {
   "property": "C115",
   "status": "proved",
   "theorems": [
    "C115_fitted_tensor",
    "C115_generator_extents",
    "C115_streamwise_spectrum"
   ],
   "note": "About the field before the normalisation of a block, in exact arithmetic; the network of a DRD kernel must be even in the wave vector, which C11 shows for the networks of the package."
  },
  {
   "property": "C116",
   "status": "partial",
   "theorems": [
    "C116_cell_factor_partial",
    "C116_refuted"
   ],
   "note": "False of the code: the variance is the Riemann sum times the volume of a grid cell over (2 pi)^3 (C116_cell_factor_partial), so it shrinks under refinement; refuted for every von Karman kernel and odd grid whose cells do not have that volume (C116_refuted). The normalisation of blocks hides the factor in generated fields."
  },
  {
   "property": "C117",
   "status": "proved",
   "theorems": [
    "C117_prints_latest_fit",
    "C117_raises_until_fit",
    "C117_returned_values"
   ],
   "note": "prepare (reading the dictionary, setting up loss and optimiser) is an arbitrary function which may raise; C117_returned_values ties the operation to the model of calibrate used elsewhere."
  },
  {
   "property": "C118",
   "status": "partial",
   "theorems": [
    "C118_after_fit_partial",
    "C118_assigned_partial",
    "C118_quiet_partial",
    "C118_refuted"
   ],
   "note": "False of the code: assigning parameters after a fit keeps the stored fit (C118_refuted); it holds right after a returning calibrate (C118_after_fit_partial) and through prints and operations that raise before training (C118_quiet_partial)."
  },
  {
   "property": "C119",
   "status": "partial",
   "theorems": [
    "C119_kept_partial",
    "C119_refuted"
   ],
   "note": "False of the code: exceptions in the training loop leave the parameters where the optimiser put them; without a learnable spectrum the first epoch always raises AttributeError after the step (C119_refuted). Stored fit, architecture and number of parameters are kept, the data are replaced (C119_kept_partial)."
  },
  {
   "property": "C120",
   "status": "proved",
   "theorems": [
    "C120_needs_network",
    "C120_network_norm"
   ],
   "note": "Default order of the norm only."
  },
  {
   "property": "C121",
   "status": "partial",
   "theorems": [
    "C121_completed_partial",
    "C121_crash_states_partial",
    "C121_never_a_third_model_partial",
    "C121_refuted"
   ],
   "note": "False of the code: the file is emptied when it is opened (C121_refuted). At every crash point the file is the old one or a beginning of the new one and other files are untouched (C121_crash_states_partial); when the decoder fails on proper beginnings, as pickle does, a reader finds the old model, the new model, or an error (C121_never_a_third_model_partial); a completed save is the atomic save of the model (C121_completed_partial). Loss of unflushed data by the operating system after a completed call is not modelled."
  },
  {
   "property": "C122",
   "status": "partial",
   "theorems": [
    "C122_distinct_files",
    "C122_same_content",
    "C122_same_file_refuted",
    "C122_sequential"
   ],
   "note": "False of the code for two different models saved to the same file: a schedule mixes the bytes (C122_same_file_refuted). True for different files and for equal contents under every schedule (C122_distinct_files, C122_same_content), and for one save after the other (C122_sequential)."
  },
  {
   "property": "C123",
   "status": "partial",
   "theorems": [
    "C123_panels_partial",
    "C123_refuted",
    "C123_single_term_refuted"
   ],
   "note": "False of the code: the first two records of each term are dropped (C123_refuted) and a log with a single term cannot be drawn (C123_single_term_refuted). C123_panels_partial is the exact content of the panels (reversed order of terms) otherwise."
  },
  {
   "property": "C124",
   "status": "partial",
   "theorems": [
    "C124_errors_partial",
    "C124_listed_partial",
    "C124_refuted"
   ],
   "note": "False of the code: the number indexes the unspecified order of os.listdir (C124_refuted). C124_listed_partial and C124_errors_partial give the exact behaviour for a listing."
  },
  {
   "property": "C125",
   "status": "proved",
   "theorems": [
    "C125_energy_continuous",
    "C125_lifetimes_continuous",
    "C125_network_continuous",
    "C125_output_close",
    "C125_output_limit",
    "C125_unclipped_converges"
   ],
   "note": "Exact real arithmetic. The network lifetime is covered by C125_unclipped_converges when its output is continuous in the wave numbers (it is wherever the network output has non-zero norm); the closed-form lifetimes and energy spectra are proved continuous."
  },
  {
   "property": "C126",
   "status": "proved",
   "theorems": [
    "C126_coherence_converges"
   ],
   "note": "Exact real arithmetic; the floor 1e-32 of the code is part of the limit."
  },
  {
   "property": "C127",
   "status": "partial",
   "theorems": [
    "C127_points_alone_refuted"
   ],
   "note": "False of the code: the two cells next to zero keep the width 10^p1 (C127_points_alone_refuted: the error of a smooth, sensible model stays above a positive constant for every number of points). With p1 decreasing as well the quadrature converges (C125)."
  },
  {
   "property": "C128",
   "status": "partial",
   "theorems": [
    "C128_isotropic_partial",
    "C128_refuted"
   ],
   "note": "False of the code: c is computed from the radial integral as if kappa were the wave number, so for every angle other than 45 degrees the realised spectrum carries more than (1 + cos(2 psi)^2/32) sigma2 (C128_refuted). At 45 degrees the variance is exact up to the cut-off of the integrals (C128_isotropic_partial)."
  },
  {
   "property": "C129",
   "status": "proved",
   "theorems": [
    "C129_anisotropy"
   ],
   "note": "Integrals in polar coordinates over the wave vectors with kappa <= K, every K; the density is the one realised by the generator (C97)."
  },
  {
   "property": "C130",
   "status": "proved",
   "theorems": [
    "C130_estimates_converge",
    "C130_estimates_defined",
    "C130_mean_estimate"
   ],
   "note": "Seeds enter as a weighted finite ensemble whose draws are white (zero mean, unit variance, uncorrelated); a concrete such ensemble is exhibited. The highest wave number, reported as 0, is excluded here and treated in C58; unequal spacings in C54."
  },
  {
   "property": "C131",
   "status": "proved",
   "theorems": [
    "C131_figure",
    "C131_not_generated"
   ],
   "note": "Pixels follow the documented geometry of imshow (extent divided evenly, origin lower, nearest interpolation); colour map, labels and layout are not modelled."
  },
  {
   "property": "C132",
   "status": "proved",
   "theorems": [
    "C132_export",
    "C132_grid_array"
   ],
   "note": "The file is modelled as numbers of cells, spacing and the raveled cell arrays (documented order of imageToVTK); byte encoding, XML header and file name are not modelled."
  },
  {
   "property": "C133",
   "status": "partial",
   "theorems": [
    "C133_partial",
    "C133_refuted"
   ],
   "note": "False of the code for torch tensors, which the setter does not copy (vector_to_parameters makes the parameters views of the tensor): refuted for every session with two problems given one tensor. C133_partial: holds in all sessions which assign numpy arrays only."
  },
  {
   "property": "C134",
   "status": "proved",
   "theorems": [
    "C134_snapshot"
   ],
   "note": "Proved for every session; the two exceptions in the statement are those the user causes (see C133)."
  },
  {
   "property": "C135",
   "status": "proved",
   "theorems": [
    "C135_coincide",
    "C135_curves",
    "C135_drawn",
    "C135_reference"
   ],
   "note": "Proved for every lifetime model."
  },
  {
   "property": "C136",
   "status": "partial",
   "theorems": [
    "C136_exact_partial",
    "C136_refuted"
   ],
   "note": "False of the code: the abscissa uses the length scale given by the user. C136_exact_partial: for the two-thirds lifetime the claim holds exactly when the calibrated length scale equals the initial one."
  },
  {
   "property": "C137",
   "status": "partial",
   "theorems": [
    "C137_behind_partial",
    "C137_refuted",
    "C137_settled_partial"
   ],
   "note": "False of the code: the loss compared with tol was evaluated before the last move of the parameters. Refuted by a run of Adam; C137_behind_partial gives the relation for every run of Adam, C137_settled_partial proves the claim for optimisers whose steps end at the vector evaluated last."
  },
  {
   "property": "C138",
   "status": "proved",
   "theorems": [
    "C138_value"
   ],
   "note": "Proved for every state of the aggregator, with and without theta and coherence data."
  },
  {
   "property": "C139",
   "status": "partial",
   "theorems": [
    "C139_ratio_partial",
    "C139_refuted"
   ],
   "note": "False of the code, which averages over the spectra as well. C139_ratio_partial: the reported value is the documented one divided by the number of spectra."
  },
  {
   "property": "C140",
   "status": "proved",
   "theorems": [
    "C140_noise",
    "C140_none_skipped",
    "C140_once",
    "C140_sizes"
   ],
   "note": "Proved for every history of calls and every random generator."
  },
  {
   "property": "C141",
   "status": "proved",
   "theorems": [
    "C141_values"
   ],
   "note": "Proved for every history of calls; the mean profile and the factor are described by C43-C46."
  },
  {
   "property": "C142",
   "status": "proved",
   "theorems": [
    "C142_any_size",
    "C142_odd"
   ],
   "note": "C142_any_size: all sizes, with the pairing of opposite modes by the half-spectrum transform; C142_odd: exactly the tensor."
  },
  {
   "property": "C143",
   "status": "partial",
   "theorems": [
    "C143_refuted",
    "C143_value_partial"
   ],
   "note": "False of the code: C143_refuted shows that blocks of a call beyond the end of the low-frequency field succeed without any low-frequency content. C143_value_partial gives the added field everywhere: bilinear between the nodes of the drawn field, zero outside them."
  },
  {
   "property": "C144",
   "status": "partial",
   "theorems": [
    "C144_mesh_study_refuted",
    "C144_single_run_partial"
   ],
   "note": "False of the code: C144_mesh_study_refuted: for every range and schedule the study shows no figure (or raises for low = 0), because the fixed domain of four scales is enlarged. C144_single_run_partial characterises the runs that work."
  },
  {
   "property": "C145",
   "status": "partial",
   "theorems": [
    "C145_defaults_partial",
    "C145_domain_study_refuted",
    "C145_sizes_partial"
   ],
   "note": "False of the code: C145_domain_study_refuted for the default factors. C145_sizes_partial gives exactly the sizes shown: those of at least five scales."
  },
  {
   "property": "C146",
   "status": "partial",
   "theorems": [
    "C146_completion_order_partial",
    "C146_one_process_each_partial",
    "C146_processes_refuted"
   ],
   "note": "False of the code: C146_processes_refuted: the assignment of tasks to processes matters. True parts: C146_completion_order_partial, C146_one_process_each_partial."
  },
  {
   "property": "C147",
   "status": "partial",
   "theorems": [
    "C147_curves_partial",
    "C147_domain_variances_refuted",
    "C147_run_partial"
   ],
   "note": "False of the code: C147_domain_variances_refuted: the fields are averaged before the variance is taken, which divides it by the number of realisations. C147_run_partial gives the averages of all four statistics for any number of realisations."
  },
  {
   "property": "C148",
   "status": "partial",
   "theorems": [
    "C148_balance_partial",
    "C148_printed_variances_refuted"
   ],
   "note": "False of the code: C148_printed_variances_refuted: one-sided sum without the factor two, so at most half. C148_balance_partial is the exact balance."
  },
  {
   "property": "C149",
   "status": "proved",
   "theorems": [
    "C149_computational",
    "C149_defined",
    "C149_delivered"
   ],
   "note": "Ranges of scales in which the guards against small divisors do not act (ordinary)."
  },
  {
   "property": "C150",
   "status": "partial",
   "theorems": [
    "C150_several_angles_partial",
    "C150_single_angle_refuted"
   ],
   "note": "False of the code for a single angle with plotting: C150_single_angle_refuted (TypeError). C150_several_angles_partial: the statement in all other cases."
  },
  {
   "property": "C151",
   "status": "proved",
   "theorems": [
    "C151_selected_later",
    "C151_selected_later_vector"
   ],
   "note": "Fields and vector fields; the selected method replaces the earlier one for the whole later history."
  },
  {
   "property": "C152",
   "status": "proved",
   "theorems": [
    "C152_three_dimensions"
   ],
   "note": "For a single extent, at least two nodes."
  },
  {
   "property": "C153",
   "status": "proved",
   "theorems": [
    "C153_bounds",
    "C153_continuous",
    "C153_decreasing",
    "C153_inertial_law",
    "C153_large_scale_law",
    "C153_series"
   ],
   "note": "The hypergeometric function is specified by Euler's integral, proved equal to the series inside the unit disc; that scipy computes it is assumed."
  },
  {
   "property": "C154",
   "status": "partial",
   "theorems": [
    "C154_built_partial",
    "C154_finite_refuted",
    "C154_slopes_partial",
    "C154_slopes_refuted",
    "C154_small_weights_partial"
   ],
   "note": "The full statement is false: C154_slopes_refuted (another activation), C154_finite_refuted (weights with infinite lifetime). Proved for rectified units where the augmented vector is not 0, which holds for small weights."
  },
  {
   "property": "C155",
   "status": "partial",
   "theorems": [
    "C155_learnable",
    "C155_requested_partial",
    "C155_requested_refuted"
   ],
   "note": "The full statement is false: C155_requested_refuted. Without learnable exponents the requested slopes are honoured exactly when they are 4 and -5/3; with learnable exponents the slopes are p and p - 2q."
  },
  {
   "property": "C156",
   "status": "proved",
   "theorems": [
    "C156_exact_integral",
    "C156_identify",
    "C156_output",
    "C156_quadrature"
   ],
   "note": "The infinite plane is reached through squares with an explicit bound on the outside; the delivered rows carry in addition the clipping constant times the area, as in C125."
  },
  {
   "property": "C157",
   "status": "partial",
   "theorems": [
    "C157_bounds_partial",
    "C157_decay_refuted"
   ],
   "note": "The full statement is false: C157_decay_refuted (the clipping constant is integrated over the square and multiplied by k1). C157_bounds_partial shows that nothing else grows, for the vertical component of every model and all components without shear."
  },
  {
   "property": "C158",
   "status": "partial",
   "theorems": [
    "C158_calibrated_partial",
    "C158_mann_density",
    "C158_scale_refuted",
    "C158_von_karman_partial"
   ],
   "note": "The full statement is false: the sampled densities are smaller by the factor (2 pi)^3 (C158_scale_refuted). With that factor the limits hold: C158_mann_density, C158_calibrated_partial (Mann model against the quadrature of the calibration) and C158_von_karman_partial (against the generated data)."
  },
  {
   "property": "C159",
   "status": "partial",
   "theorems": [
    "C159_curves",
    "C159_estimates",
    "C159_highest_partial",
    "C159_highest_refuted",
    "C159_none",
    "C159_printed",
    "C159_single_refuted",
    "C159_unbiased_partial"
   ],
   "note": "The full statement is false: at the highest wave number the numerical curves are zero for every seed while the analytical curve is positive (C159_highest_refuted), and a generator with one point along the wind raises (C159_single_refuted). All other clauses hold: C159_curves, C159_printed, C159_estimates, C159_none, and below the highest wave number C159_unbiased_partial. Assumed for the positive results: lengths up to 10^9 (the tolerance of the estimator), and for the expectations a domain of at least five scales with ordinary lengths."
  },
  {
   "property": "C160",
   "status": "proved",
   "theorems": [
    "C160_cells",
    "C160_rectangles",
    "C160_reports",
    "C160_square_cells",
    "C160_table",
    "C160_uncropped"
   ],
   "note": "Proved for the published exponents, factors and rectangles and every base configuration. The constants of the configuration are assumed in ordinary ranges for the expectations (guards of the code against small divisors). With no realisations numpy's mean of an empty list (NaN with a warning) is not modelled."
  },
  {
   "property": "C161",
   "status": "partial",
   "theorems": [
    "C161_best_fit",
    "C161_best_fit_many",
    "C161_closed_forms",
    "C161_coherence",
    "C161_loss_fit",
    "C161_mann_fit",
    "C161_misfit",
    "C161_network",
    "C161_rows_partial",
    "C161_uw_partial",
    "C161_uw_refuted"
   ],
   "note": "The full statement is false for the uw row: its entries are clipped to plus or minus the threshold by their sign, so the row jumps where the shear vanishes, for every length scale, magnitude, spectrum, lifetime and grid (C161_uw_refuted). The other five rows are continuous (C161_rows_partial), the uw row up to twice the integral of the threshold (C161_uw_partial), auto-coherences on a fixed grid (C161_coherence), and with them the misfit of a three-component fit, which therefore has a minimum on every interval and box of parameters (C161_misfit, C161_best_fit, C161_best_fit_many, C161_mann_fit; the whole loss: C161_loss_fit). The closed-form and learned models satisfy the hypotheses (C161_closed_forms, C161_network); the learned ones where the augmented wave vector differs from 0, as in C125."
  },
  {
   "property": "C162",
   "status": "proved",
   "theorems": [
    "C162_estimates",
    "C162_estimates_finish",
    "C162_kernel",
    "C162_kernel_finish"
   ],
   "note": "Proved for every interleaving at the granularity of one assignment or one pass of an inner loop, with atomic, sequentially consistent memory; reassociation of floating-point sums (fastmath) is outside exact arithmetic."
  },
  {
   "property": "C163",
   "status": "partial",
   "theorems": [
    "C163_called_partial",
    "C163_documented_name_refuted",
    "C163_learned_kernel",
    "C163_missing",
    "C163_rejected",
    "C163_stored"
   ],
   "note": "The full statement is false: the documented keyword eval_func is ignored and evaluation raises TypeError (C163_documented_name_refuted); a function given as func is called but its value is discarded (C163_called_partial, last clause). The other clauses hold: C163_stored, C163_rejected, C163_missing, C163_learned_kernel."
  },
  {
   "property": "C164",
   "status": "partial",
   "theorems": [
    "C164_activation_refuted",
    "C164_built",
    "C164_counted_partial",
    "C164_determined_partial",
    "C164_frozen",
    "C164_listed_partial",
    "C164_reachable_partial"
   ],
   "note": "The full statement is false of the code: activation modules are kept in a plain list, so their parameters are neither counted nor in the parameter vector nor fitted (C164_activation_refuted, C164_frozen). Proved: weights and exponent are listed once each in order, counted, reachable, and determine the lifetime when the activations have no parameters; construction only adds the noise."
  },
  {
   "property": "C165",
   "status": "proved",
   "theorems": [
    "C165_angle_zero",
    "C165_limit",
    "C165_small",
    "C165_truncation"
   ],
   "note": "Proved with scipy's quad taken as the exact integral, for wave numbers of at least 1e-10 (also after multiplication by cos psi) and length scales up to 1e6, where none of the guards of the code is active. C165_angle_zero shows that the documented range of angles is needed."
  },
  {
   "property": "C166",
   "status": "partial",
   "theorems": [
    "C166_fails",
    "C166_gpu_partial",
    "C166_processor_partial",
    "C166_refuted"
   ],
   "note": "The full statement is false of the code (C166_refuted: a file saved on a GPU cannot be read on a machine without one). Exact characterisation: C166_fails; C166_processor_partial and C166_gpu_partial cover all other combinations. The behaviour of pickle and torch.load is an assumption of the model (DevModel.v)."
  },
  {
   "property": "C167",
   "status": "partial",
   "theorems": [
    "C167_cuda_refuted",
    "C167_double_partial",
    "C167_precision",
    "C167_single_refuted",
    "C167_usable",
    "C167_values"
   ],
   "note": "The full statement is false of the code (C167_single_refuted, C167_cuda_refuted: every network in single precision raises RuntimeError in the generator). C167_usable is the exact condition over all histories; C167_double_partial and C167_values give the saved numbers."
  },
  {
   "property": "C168",
   "status": "partial",
   "theorems": [
    "C168_fits_partial",
    "C168_refuted",
    "C168_reloaded_refuted"
   ],
   "note": "The full statement is false of the code (C168_refuted, C168_reloaded_refuted). C168_fits_partial gives the exact condition for problems whose parameters were not replaced."
  },
  {
   "property": "C169",
   "status": "partial",
   "theorems": [
    "C169_cpu_refuted",
    "C169_cuda_partial",
    "C169_defaults_partial",
    "C169_defaults_refuted",
    "C169_later_refuted",
    "C169_others_partial",
    "C169_unavailable_refuted"
   ],
   "note": "The full statement is false of the code (C169_defaults_refuted, C169_cpu_refuted, C169_unavailable_refuted). C169_defaults_partial, C169_cuda_partial and C169_others_partial say what holds."
  },
  {
   "property": "C170",
   "status": "partial",
   "theorems": [
    "C170_checks_refuted",
    "C170_grid_partial",
    "C170_smallest_refuted"
   ],
   "note": "The full statement is false of the code (C170_checks_refuted: a grid of 18,900 km is refused; C170_smallest_refuted: 322 nodes where 320 suffice). C170_grid_partial holds for all domains up to 2^23 m. Overflow is not modelled (the exponent is unbounded above)."
  },
  {
   "property": "C171",
   "status": "partial",
   "theorems": [
    "C171_buffer_partial",
    "C171_enough_refuted",
    "C171_least_refuted"
   ],
   "note": "The full statement is false of the code (C171_enough_refuted, C171_least_refuted). C171_buffer_partial bounds the error for all inputs."
  },
  {
   "property": "C172",
   "status": "proved",
   "theorems": [
    "C172_close",
    "C172_low_close",
    "C172_low_mirror",
    "C172_low_order",
    "C172_mirror",
    "C172_order",
    "C172_side"
   ],
   "note": "Rounding of IEEE binary64 after every operation (FloModel.v); np.pi is the double nearest to pi."
  },
  {
   "property": "C173",
   "status": "proved",
   "theorems": [
    "C173_order",
    "C173_positions"
   ],
   "note": "Rounding of IEEE binary64 after every operation (FloModel.v)."
  },
  {
   "property": "C174",
   "status": "proved",
   "theorems": [
    "C174_ends",
    "C174_heights",
    "C174_heights_order",
    "C174_log",
    "C174_power",
    "C174_power_reference"
   ],
   "note": "The power and logarithm of numpy are arguments of the model; the hypotheses name the properties used."
  },
  {
   "property": "C175",
   "status": "proved",
   "theorems": [
    "C175_centred",
    "C175_far",
    "C175_shared",
    "C175_within"
   ],
   "note": "About blocks before the division by their standard deviation (C39 relates them to the delivered values); for every grid size, with the pairing of opposite modes made by the real transform."
  },
  {
   "property": "C176",
   "status": "proved",
   "theorems": [
    "C176_failed",
    "C176_ratios",
    "C176_sum",
    "C176_tags",
    "C176_transparent"
   ],
   "note": "The format of the event files and their time stamps are not modelled."
  },
  {
   "property": "C177",
   "status": "partial",
   "theorems": [
    "C177_duplicate_refuted",
    "C177_evaluations_partial",
    "C177_refuted"
   ],
   "note": "Full statement false of the code: C177_refuted (steps exceed the number of epochs), C177_duplicate_refuted (step 0 occurs twice). C177_evaluations_partial states what the steps are."
  },
  {
   "property": "C178",
   "status": "partial",
   "theorems": [
    "C178_panels_partial",
    "C178_penalties_partial",
    "C178_refuted"
   ],
   "note": "Full statement false of the code: C178_refuted (the coherence curve is shifted by one evaluation). C178_penalties_partial: misfit and penalties are aligned; C178_panels_partial: one panel for every recorded quantity, with its values."
  },
  {
   "property": "C179",
   "status": "partial",
   "theorems": [
    "C179_default_partial",
    "C179_refuted"
   ],
   "note": "Full statement false of the code: C179_refuted. C179_default_partial: true without a logging directory. The naming of directories by torch's SummaryWriter is modelled from its documentation."
  },
  {
   "property": "C180",
   "status": "partial",
   "theorems": [
    "C180_refuted"
   ],
   "note": "Full statement false of the code: C180_refuted (the options have no effect). The scales that would be used are the subject of C79."
  },
  {
   "property": "C181",
   "status": "partial",
   "theorems": [
    "C181_exact_partial",
    "C181_foreign_partial",
    "C181_number_partial",
    "C181_refuted",
    "C181_same_field_partial"
   ],
   "note": "Full statement false of the code: C181_refuted (lists raise). C181_exact_partial says exactly which texts are accepted, with which value; the other partial theorems what follows for the generator. Which numbers pyfftw accepts is an argument of the model; non-ASCII spaces and digits and the limit of 4300 digits are not modelled."
  },
  {
   "property": "C182",
   "status": "partial",
   "theorems": [
    "C182_after_figure_partial",
    "C182_figure_partial",
    "C182_import_partial",
    "C182_missing_refuted",
    "C182_refuted"
   ],
   "note": "Full statement false of the code: C182_refuted (import-time directory), C182_missing_refuted (missing directory). The partial theorems hold for every history; C182_figure_partial: where figures are saved."
  },
  {
   "property": "C183",
   "status": "partial",
   "theorems": [
    "C183_empty_refuted",
    "C183_one_save_partial",
    "C183_refuted"
   ],
   "note": "Full statement false of the code: C183_refuted (a relative str follows the working directory), C183_empty_refuted. C183_one_save_partial: one save."
  },
  {
   "property": "C184",
   "status": "proved",
   "theorems": [
    "C184_components",
    "C184_diagnostics",
    "C184_rules"
   ],
   "note": "For windows of finite values; other values and short windows are covered by the theorems of C32."
  },
  {
   "property": "C185",
   "status": "partial",
   "theorems": [
    "C185_all_terms_partial",
    "C185_refuted"
   ],
   "note": "Full statement false of the code: C185_refuted. C185_all_terms_partial: true when all terms are active and balanced."
  },
  {
   "property": "C186",
   "status": "partial",
   "theorems": [
    "C186_lifetime_refuted",
    "C186_relu_partial",
    "C186_spectra_partial",
    "C186_spectra_refuted"
   ],
   "note": "Full statement false of the code: C186_lifetime_refuted, C186_spectra_refuted (EddyLifetimeType.MANN). C186_spectra_partial: true for all other lifetimes off the clipping bound and the kinks of the network. C186_relu_partial: the derivative applied for ReLU is right exactly at inputs other than zero."
  },
  {
   "property": "C187",
   "status": "partial",
   "theorems": [
    "C187_loss_partial",
    "C187_loss_refuted"
   ],
   "note": "Full statement false of the code: C187_loss_refuted (EddyLifetimeType.MANN). C187_loss_partial: true for all other lifetimes, with all penalties except the coherence term."
  },
  {
   "property": "C188",
   "status": "partial",
   "theorems": [
    "C188_first_partial",
    "C188_once",
    "C188_repeat_partial",
    "C188_repeat_refuted"
   ],
   "note": "Full statement false of the code: C188_repeat_refuted. C188_repeat_partial: true for modules built for coherences or first evaluated without gradients; C188_first_partial: the first differentiation always works."
  },
  {
   "property": "C189",
   "status": "proved",
   "theorems": [
    "C189_balanced",
    "C189_magnitude",
    "C189_unique"
   ],
   "note": "For curves among uu, vv, ww and uw and magnitudes for which no density is replaced by the bound 1e-12; without coherence term."
  },
  {
   "property": "C190",
   "status": "partial",
   "theorems": [
    "C190_analytical_partial",
    "C190_floats_partial",
    "C190_fractions_partial",
    "C190_kaimal_partial",
    "C190_refuted"
   ],
   "note": "The full statement is false (C190_refuted). For integers, none negative, all Kaimal data are zero (C190_kaimal_partial); the analytical spectra are truncated to integers (C190_fractions_partial) and are zero beyond an explicit wave number where floating-point numbers give positive values (C190_analytical_partial, quad taken as exact). Floating-point wave numbers give the documented Kaimal values (C190_floats_partial)."
  },
  {
   "property": "C191",
   "status": "partial",
   "theorems": [
    "C191_coherence_partial",
    "C191_fit_partial",
    "C191_kaimal_partial",
    "C191_lifetime_partial",
    "C191_loss_partial",
    "C191_refuted",
    "C191_spectra_partial",
    "C191_von_karman_partial"
   ],
   "note": "False of the code: the nodes of the one-point integration are absolute wave numbers, so for every model, grid and wave number the computed vv and ww spectra exceed every bound when the unit is fine enough (C191_refuted); the two penalties are divided by the height and its square although slopes are dimensionless (C191_loss_partial gives the exact effect). True parts: with the exponents of the grid shifted the spectra are equal (C191_spectra_partial), and with the penalty weights multiplied as well the loss of every model is (C191_fit_partial); coherences are equal after every history because their grid is divided by the length scale (C191_coherence_partial); all lifetimes but MANN_APPROX are functions of kL (C191_lifetime_partial); generated data do not depend on the unit (C191_kaimal_partial, C191_von_karman_partial)."
  },
  {
   "property": "C192",
   "status": "partial",
   "theorems": [
    "C192_coherence_partial",
    "C192_fit_partial",
    "C192_kaimal_partial",
    "C192_refuted",
    "C192_spectra_partial"
   ],
   "note": "False of the code because densities below 1e-12 are replaced by 1e-12: for every model, grid and wave number the spectrum is too large once the unit is coarse enough (C192_refuted). Where no density is replaced in either unit, spectra (C192_spectra_partial), coherences after every history (C192_coherence_partial) and the loss with all penalties (C192_fit_partial) behave as stated; Kaimal data always do (C192_kaimal_partial)."
  },
  {
   "property": "C193",
   "status": "partial",
   "theorems": [
    "C193_accepted_partial",
    "C193_dry_run_refuted",
    "C193_entries_partial",
    "C193_refuted"
   ],
   "note": "False of the scripts: for every accepted file the first line is lost (skip_header=1, the files have no header) and the uv data are the vw column, the uv column being unused (C193_refuted); dry_run.py raises TypeError for every well-formed file before a fit and takes frequencies as wave numbers (C193_dry_run_refuted). The other entries and the wave numbers of script_fit_coh.py are right (C193_entries_partial); the accepted files are characterised (C193_accepted_partial)."
  },
  {
   "property": "C194",
   "status": "partial",
   "theorems": [
    "C194_definitions_partial",
    "C194_names_partial",
    "C194_reexports_partial",
    "C194_refuted",
    "C194_star_partial"
   ],
   "note": "False of the code: six names in the public list of drdmannturb do not exist (extract_x_spectra, interp_spectra, interpolate, CustomMLP, CustomNet, SimpleNN), so `from drdmannturb import *` raises AttributeError in every environment and after every history (C194_refuted). The other 37 names give the objects of their defining files (C194_names_partial), the star import of every other module binds exactly its list (C194_star_partial), every definition can be imported from its file (C194_definitions_partial), a name taken from another file, renamed or not, is the same object in both (C194_reexports_partial)."
  },
  {
   "property": "C195",
   "status": "proved",
   "theorems": [
    "C195_any_order",
    "C195_attributes",
    "C195_every_file",
    "C195_libraries",
    "C195_retry"
   ],
   "note": "Results of `import m` and `from m import names` are independent of the history (C195_any_order); exactly the 22 files can be imported (C195_every_file); in a new interpreter every import either works or names a missing library (C195_libraries); while a library is missing, repeated `import` statements keep reporting a missing library (C195_retry); after `import a.b.c` the attributes lead to the module (C195_attributes). `from m import *` of a package without a public list binds the submodules loaded so far and is outside the statement."
  },
  {
   "property": "C196",
   "status": "partial",
   "theorems": [
    "C196_errors_partial",
    "C196_field_partial",
    "C196_imports_partial",
    "C196_refuted"
   ],
   "note": "False of the code: examples 1, 4, 5 and fit_for_profiling import names which no longer exist and raise in every environment; GenerateWindTurbulence and GenerateWind raise for all arguments (C196_refuted). The imports of the other six examples succeed (C196_imports_partial); what the vector field constructor would accept is characterised (C196_field_partial); the exception of each model is given by C196_errors_partial."
  },
  {
   "property": "C197",
   "status": "partial",
   "theorems": [
    "C197_construct_partial",
    "C197_refuted",
    "C197_scales_partial",
    "C197_value_partial"
   ],
   "note": "False of the code: __call__ of the class replaces that of nn.Module and calls forward directly, so registered hooks never run, for any class and any hooks (C197_refuted). Values agree with torch's call when no hook replaces a value, and are those of the most derived forward (C197_value_partial); exactly the classes with a forward can be constructed and keep their scales (C197_construct_partial); which assignments are refused and which scales are trained, after any history (C197_scales_partial). A number is refused for a scale once made trainable, by torch."
  }
 ]
}