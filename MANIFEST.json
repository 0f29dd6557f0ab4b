{
 "claims": [
  {
   "property": "C01",
   "status": "proved",
   "theorems": [
    "C01_untyped_file_roundtrip",
    "C01_parse_replaces",
    "C01_end_mark",
    "C01_nul_ends_line"
   ],
   "note": ""
  },
  {
   "property": "C02",
   "status": "partial",
   "theorems": [
    "C02_typed_file_roundtrip_partial",
    "C02_typed_file_roundtrip_refuted"
   ],
   "note": "Finding: Parse takes key.substr(tpos1+1, tpos1) as the type name, so a typed entry is readable only if the key is as long as its type name; proved as an exact characterisation, full statement refuted."
  },
  {
   "property": "C03",
   "status": "proved",
   "theorems": [
    "C03_merge"
   ],
   "note": ""
  },
  {
   "property": "C04",
   "status": "partial",
   "theorems": [
    "C04_parse_terminates_partial",
    "C04_parse_terminates_exact_partial",
    "C04_parse_terminates_refuted"
   ],
   "note": "Finding: a line of 2048 or more characters makes Parse loop forever; exact characterisation proved, full statement refuted."
  },
  {
   "property": "C05",
   "status": "partial",
   "theorems": [
    "C05_trim_partial",
    "C05_trim_refuted"
   ],
   "note": "Finding: strings of two or more blanks are returned unchanged; exact characterisation proved, full statement refuted."
  },
  {
   "property": "C06",
   "status": "proved",
   "theorems": [
    "C06_int_array_roundtrip",
    "C06_empty_array_undefined"
   ],
   "note": ""
  },
  {
   "property": "C07",
   "status": "proved",
   "theorems": [
    "C07_scalar_roundtrip",
    "C07_scalar_other_keys",
    "C07_bool_array_roundtrip",
    "C07_bool_code",
    "C07_bool_array_code"
   ],
   "note": ""
  },
  {
   "property": "C08",
   "status": "partial",
   "theorems": [
    "C08_lookup_partial",
    "C08_lookup_refuted"
   ],
   "note": "Finding: text that is not a number is reported as success and leaves the target unchanged; exact characterisation proved, full statement refuted."
  },
  {
   "property": "C09",
   "status": "proved",
   "theorems": [
    "C09_alloc_never_in_use",
    "C09_system_free_safe"
   ],
   "note": ""
  },
  {
   "property": "C10",
   "status": "partial",
   "theorems": [
    "C10_limit_partial",
    "C10_limit_refuted",
    "C10_limit_disabled_afterwards"
   ],
   "note": "Finding: the request is compared with the limit before it is rounded up to whole blocks; once the limit is exceeded the remaining space wraps around and every request is granted. Proved when the limit is a multiple of the block size, full statement refuted."
  },
  {
   "property": "C11",
   "status": "partial",
   "theorems": [
    "C11_double_free_partial",
    "C11_double_free_refuted"
   ],
   "note": "Finding: in the release build (NDEBUG) a second free puts the block on the free list twice and it is handed out twice; the debug build is proved safe, full statement refuted."
  },
  {
   "property": "C12",
   "status": "proved",
   "theorems": [
    "C12_size_strings"
   ],
   "note": ""
  },
  {
   "property": "C13",
   "status": "proved",
   "theorems": [
    "C13_refcounts"
   ],
   "note": ""
  },
  {
   "property": "C14",
   "status": "partial",
   "theorems": [
    "C14_presence_partial",
    "C14_presence_exact_partial",
    "C14_reading_refuted",
    "C14_values_stable",
    "C14_values_typed",
    "C14_check_answer"
   ],
   "note": "Finding: reading an option that was not given inserts it, so it is afterwards reported as given; exact characterisation of presence proved, values and the check for missing options proved stable; full statement refuted."
  },
  {
   "property": "C15",
   "status": "proved",
   "theorems": [
    "C15_address",
    "C15_bijection",
    "C15_flat_bijection",
    "C15_size",
    "C15_stride2_code"
   ],
   "note": ""
  },
  {
   "property": "C16",
   "status": "partial",
   "theorems": [
    "C16_axis_partial",
    "C16_once",
    "C16_cube",
    "C16_switch_back_refuted"
   ],
   "note": "Finding: switching back to a dimension whose information is cached keeps the stripe count of the dimension active before, so stripes are skipped or run past the end; each single switch on a fresh view proved (and any sequence over a cube), full statement refuted."
  },
  {
   "property": "C17",
   "status": "proved",
   "theorems": [
    "C17_stripes",
    "C17_cover"
   ],
   "note": ""
  },
  {
   "property": "C18",
   "status": "proved",
   "theorems": [
    "C18_first_derivative",
    "C18_second_derivative",
    "C18_kinetic",
    "C18_spacing",
    "C18_bin_unique"
   ],
   "note": ""
  },
  {
   "property": "C19",
   "status": "partial",
   "theorems": [
    "C19_even_partial",
    "C19_odd_partial",
    "C19_middle_bin",
    "C19_axis_refuted"
   ],
   "note": "Finding: for an odd number of bins the middle bin is labelled i-N instead of i; proved for even N and for all other bins, full statement refuted."
  },
  {
   "property": "C20",
   "status": "proved",
   "theorems": [
    "C20_stencil",
    "C20_needs_points"
   ],
   "note": "Also proved: with fewer than order points the code always leaves the vector (no check in the code)."
  },
  {
   "property": "C21",
   "status": "partial",
   "theorems": [
    "C21_operator_sum",
    "C21_all_1d_periodic_partial",
    "C21_all_refuted"
   ],
   "note": "Finding: HOFD::Diff over all dimensions wraps around the left edge without periodic boundaries and reduces indices modulo the size of one dimension; right only for periodic one dimensional grids (proved), full statement refuted. The operator form (OGridHOFD::Apply) is proved for every grid."
  },
  {
   "property": "C22",
   "status": "partial",
   "theorems": [
    "C22_data_partial",
    "C22_nonnull_partial",
    "C22_defined_partial",
    "C22_memory_partial",
    "C22_data_refuted",
    "C22_memory_refuted",
    "C22_memory_multistate_refuted",
    "C22_uninitialised_refuted",
    "C22_resize_zero_code"
   ],
   "note": "Partial: a successful read never returns wrong data after any history of calls and exceptions, and is never null unless the entry read is the oldest of a full auto-lock window; memory stays within the limit as long as no call failed. Refuted in full: a null pointer is returned (C22_data_refuted), the limit is exceeded after an exception (C22_memory_refuted) and by multi state wave functions (C22_memory_multistate_refuted), undefined behaviour when the buffer was not initialised or is shrunk to 0."
  },
  {
   "property": "C23",
   "status": "partial",
   "theorems": [
    "C23_partial",
    "C23_window_partial",
    "C23_refuted"
   ],
   "note": "Partial: proved for reads of entries outside the window of auto-locked entries; refuted when an entry is read again while it is in the window."
  },
  {
   "property": "C24",
   "status": "partial",
   "theorems": [
    "C24_read_partial",
    "C24_load_partial",
    "C24_flat",
    "C24_sequence",
    "C24_target_code",
    "C24_empty_code",
    "C24_intro_code",
    "C24_intro",
    "C24_truncated_code",
    "C24_nested_refuted",
    "C24_nested_load_code"
   ],
   "note": "The stream protocol of WriteWaveFunction/ReadWaveFunction/LoadWaveFunctionByMeta over an abstract header codec and abstract Serialize/DeSerialize. Refuted for multi state wave functions nested in front of other states (a multi state wave function does not mark its own end); proved for all wave functions in which only last states are nested, for reading into a target and for loading, and for sequences. Targets with too few states: undefined behaviour."
  },
  {
   "property": "C25",
   "status": "partial",
   "theorems": [
    "C25_raw_partial",
    "C25_file_partial",
    "C25_short_code",
    "C25_tagged_code",
    "C25_overread_code",
    "C25_compressed",
    "C25_incompressible_code",
    "C25_sequence",
    "C25_element",
    "C25_truncated",
    "C25_stream",
    "C25_counter_code",
    "C25_refuted",
    "C25_raw_refuted",
    "C25_sequence_refuted"
   ],
   "note": "Refuted: raw data ending with a compression tag is inflated, data under 8 bytes refused, and the format detection of ReadFile over-reads when the first 16 bytes hold no zero. Proved: all other data round trips, compressed data round trips whenever it can be written (libz/libbz2 as oracles), sequences with equal parameters round trip."
  },
  {
   "property": "C26",
   "status": "partial",
   "theorems": [
    "C26_level",
    "C26_matrix",
    "C26_matrix_code",
    "C26_laser_partial",
    "C26_laser_empty_code",
    "C26_laser_dt_code",
    "C26_laser_refuted",
    "C26_short_code"
   ],
   "note": "WFLevel and matrix operators round-trip; laser fields only when not empty and with a positive time step (C26_laser_partial); refuted for an empty field."
  },
  {
   "property": "C27",
   "status": "partial",
   "theorems": [
    "C27_level_partial",
    "C27_grid_partial",
    "C27_multi_code",
    "C27_multi_read_code",
    "C27_multi_refuted"
   ],
   "note": "Partial: level and grid wave functions round-trip byte for byte (grid headers given that protocol buffers do); refuted for multi state wave functions, whose stream contains only the number of states."
  },
  {
   "property": "C28",
   "status": "partial",
   "theorems": [
    "C28_add",
    "C28_init_partial",
    "C28_init_code",
    "C28_init_refuted",
    "C28_add_negative_code"
   ],
   "note": "Init with more than 64 requested states writes outside the table (refuted); with at most 64 the property holds."
  },
  {
   "property": "C29",
   "status": "proved",
   "theorems": [
    "C29_product",
    "C29_norm",
    "C29_linear_right",
    "C29_linear_left",
    "C29_assign",
    "C29_missing_code"
   ],
   "note": "States' products are an arbitrary function; products, norm, MPI distribution, linearity and assignment."
  },
  {
   "property": "C30",
   "status": "proved",
   "theorems": [
    "C30_sum",
    "C30_inherited",
    "C30_empty"
   ],
   "note": "Operators are any linear maps with buffers of arbitrary content; expectation values, in place and accumulating forms included."
  },
  {
   "property": "C31",
   "status": "partial",
   "theorems": [
    "C31_partial",
    "C31_in_place",
    "C31_empty_code",
    "C31_refuted"
   ],
   "note": "Partial: products of at least one operator apply right to left in all forms that give a result; an empty product leaves its target as it was and the accumulating form is refuted."
  },
  {
   "property": "C32",
   "status": "partial",
   "theorems": [
    "C32_apply",
    "C32_add",
    "C32_negative_code",
    "C32_init_hermitian",
    "C32_init_partial",
    "C32_init_code",
    "C32_init_refuted",
    "C32_copy_partial",
    "C32_copy_code",
    "C32_copy_refuted"
   ],
   "note": "Apply is proved for every matrix of operators; Init and Copy only for matrices whose unset elements do not matter (refuted in full: Init and Copy leave elements of a hermitian or copied matrix wrong)."
  },
  {
   "property": "C33",
   "status": "partial",
   "theorems": [
    "C33_position_partial",
    "C33_names_code",
    "C33_get",
    "C33_find",
    "C33_add",
    "C33_refuted"
   ],
   "note": "Partial: names and positions are consistent as long as names are distinct; the code keeps an entry under a name already in use (refuted for repeated names)."
  },
  {
   "property": "C34",
   "status": "partial",
   "theorems": [
    "C34_partial",
    "C34_total",
    "C34_code",
    "C34_refuted"
   ],
   "note": "Partial: choosing the time type before a clock is set dereferences a null pointer (C34_code, C34_refuted); for all other histories the exponent is proved."
  },
  {
   "property": "C35",
   "status": "proved",
   "theorems": [
    "C35_reversible"
   ],
   "note": "Same time step for both steps, exact arithmetic; transformations are any pair inverse to each other up to the norm, exponentials any with exp(c) exp(-c) = 1."
  },
  {
   "property": "C36",
   "status": "proved",
   "theorems": [
    "C36_fresh",
    "C36_step"
   ],
   "note": "Holds for every history if operators declared as time independent are time independent."
  },
  {
   "property": "C37",
   "status": "partial",
   "theorems": [
    "C37_in_place",
    "C37_copy_code",
    "C37_copy_refuted",
    "C37_init",
    "C37_life_code"
   ],
   "note": "The in place form is proved; the copying form applies the step to the destination's old content and stores the result in the source (C37_copy_code, refuted). Also shown: a copy of an RK4 propagator has no Hamiltonian and Init never sets it (C37_life_code)."
  },
  {
   "property": "C38",
   "status": "proved",
   "theorems": [
    "C38_series",
    "C38_real",
    "C38_imag",
    "C38_chebyshev",
    "C38_copy",
    "C38_coefficients",
    "C38_small",
    "C38_terms",
    "C38_underflow_code"
   ],
   "note": "Convergence tests are any function of the wave functions compared; exact arithmetic; terms identified with Chebyshev polynomials (C38_chebyshev). Init's coefficients are modelled from the Bessel values on; with a given order and total underflow the step reads beyond the coefficients (C38_underflow_code)."
  },
  {
   "property": "C39",
   "status": "partial",
   "theorems": [
    "C39_apply",
    "C39_idempotent",
    "C39_keeps",
    "C39_removes",
    "C39_params_code",
    "C39_copy_code",
    "C39_init_code",
    "C39_copy_refuted"
   ],
   "note": "Projection onto and out of a space: what Apply computes for any orthonormal list, idempotence, what it keeps and removes. The copy of a projector and Init are described as they are (C39_copy_code, C39_init_code); the claim that a copy projects like the original is refuted (C39_copy_refuted)."
  },
  {
   "property": "C40",
   "status": "partial",
   "theorems": [
    "C40_partial",
    "C40_cases",
    "C40_refuted"
   ],
   "note": "C40_partial: under the stated conditions; C40_cases lists all cases; the full statement is refuted by a witness (C40_refuted)."
  },
  {
   "property": "C41",
   "status": "partial",
   "theorems": [
    "C41_single",
    "C41_zero_code",
    "C41_code",
    "C41_partial",
    "C41_empty_code",
    "C41_refuted"
   ],
   "note": "Single definitions without zero coefficient and trees whose linear combinations are normalised load as meant (C41_single, C41_partial). In general a linear combination loads twice its sum (C41_code, C41_refuted), a zero coefficient is ignored (C41_zero_code), an empty combination is null (C41_empty_code)."
  },
  {
   "property": "C42",
   "status": "partial",
   "theorems": [
    "C42_run",
    "C42_restart_code",
    "C42_restart_refuted",
    "C42_restart_partial",
    "C42_restart_wcycle_code",
    "C42_fail_code",
    "C42_fail_files",
    "C42_wcycle_refuted",
    "C42_params_partial",
    "C42_refuse",
    "C42_negative_code"
   ],
   "note": "Proved for runs from the start (C42_run) and for safety of every accepted parameter but a zero write cycle (C42_params_partial). Restarts end one time step late and are refuted for both readings of the start number (C42_restart_refuted, _code, _wcycle_code); they agree with the whole run when nothing depends on time and every step is written (C42_restart_partial). A zero write cycle is accepted and divides by zero (C42_wcycle_refuted). After a failure the meta file claims all steps (C42_fail_code)."
  },
  {
   "property": "C43",
   "status": "partial",
   "theorems": [
    "C43_init",
    "C43_apply",
    "C43_readonly",
    "C43_integrate",
    "C43_states",
    "C43_sum_zero",
    "C43_rho_refuted",
    "C43_negative_code",
    "C43_add_code",
    "C43_default_code",
    "C43_reinit_refuted"
   ],
   "note": "Proved for every list read from a section by an object used once, all usable wave functions and all numbers of applications: C43_init, C43_apply, C43_readonly, C43_integrate. Not excluded by the code: rho without states or with a negative one is undefined behaviour (C43_rho_refuted, C43_negative_code), Add never stores its operator (C43_add_code), its default value kind is unknown (C43_default_code), a second Init keeps the states of the first (C43_reinit_refuted)."
  },
  {
   "property": "C44",
   "status": "partial",
   "theorems": [
    "C44_once_partial",
    "C44_once_refuted",
    "C44_add_partial",
    "C44_add_named",
    "C44_add_refuted",
    "C44_clear",
    "C44_labels_partial",
    "C44_labels_code",
    "C44_labels_refuted",
    "C44_check"
   ],
   "note": "Initialisation at most once and adding without replacing hold for tidy histories (no operator added while registered, given keys not starting with the generated prefix); both are refuted in general (one operator under two keys is initialised twice; a generated key overwrites a given one). Clearing is proved. Labels: proved for max > 0, refuted for max = 0 (writes one element)."
  },
  {
   "property": "C45",
   "status": "partial",
   "theorems": [
    "C45_partial",
    "C45_escape",
    "C45_loop",
    "C45_loop_direction_refuted",
    "C45_loop_zero_code",
    "C45_loop_double_refuted",
    "C45_define_code",
    "C45_second_code",
    "C45_brace_code",
    "C45_unclosed_code",
    "C45_attribute",
    "C45_count",
    "C45_escape_refuted",
    "C45_concat_refuted",
    "C45_copy_refuted",
    "C45_redefine_refuted",
    "C45_blocks_refuted",
    "C45_name_refuted",
    "C45_twice_refuted",
    "C45_tab_refuted",
    "C45_long_refuted"
   ],
   "note": "Token-level parser, tree execution and an XML reader as the specification. Proved for one block with plain definitions before it and distinct XML attribute names; refuted for reserved characters, concatenations and copies in definitions, redefinitions, several blocks, names that are not XML names, attributes given twice, tabs, texts of 1024 characters and more, and for the direction and the rounding of loops. Undefined behaviour after the first block and for braces too many is stated by the _code theorems."
  },
  {
   "property": "C46",
   "status": "proved",
   "theorems": [
    "C46_round_trip",
    "C46_round_trip_64",
    "C46_size"
   ],
   "note": "The 32 bit reader is the same code with w = 32: values come back modulo 2^32."
  },
  {
   "property": "C47",
   "status": "partial",
   "theorems": [
    "C47_scalar",
    "C47_sse_partial",
    "C47_sse_primitives",
    "C47_avx_primitives",
    "C47_avx_broken",
    "C47_full_refuted",
    "C47_imag_refuted",
    "C47_imags_refuted",
    "C47_avx_multimag_refuted"
   ],
   "note": "The SSE loops for Im disagree with the scalar ones ((0,im) instead of (im,0)), m128dc::imags returns the real part, m256dc::MultImag spoils its upper half and no AVX loop can run; see the refuted theorems."
  },
  {
   "property": "C48",
   "status": "partial",
   "theorems": [
    "C48_layer_partial",
    "C48_code",
    "C48_too_thick",
    "C48_accepted",
    "C48_missing_entry",
    "C48_full_refuted"
   ],
   "note": "Layers that fit, with a requested side and without overlap, scale each layer point once (C48_layer_partial); C48_code gives the exact result in all fitting cases. Refuted in general: the default thickness 10 is not checked against the grid, map 0 (documented as none) acts on both ends, overlapping layers scale points twice, and a parameter list with dim entries is read behind its end."
  },
  {
   "property": "C49",
   "status": "partial",
   "theorems": [
    "C49_partial",
    "C49_code",
    "C49_refuted"
   ],
   "note": "True for one part (C49_partial). With two or more parts the second loop indexes the slot after the last part: undefined behaviour on every non-empty grid (C49_code, C49_refuted)."
  },
  {
   "property": "C50",
   "status": "partial",
   "theorems": [
    "C50_maximas",
    "C50_window",
    "C50_regions_partial",
    "C50_good_inside",
    "C50_inside_refuted",
    "C50_root_exists",
    "C50_minimas_refuted"
   ],
   "note": "Maximas and the windowed search are exact (C50_maximas, C50_window). The plain search is characterised for thresholds that are not negative (C50_regions_partial); refuted in general: on negative data it reports the index -1, and Minimas reports ascents."
  },
  {
   "property": "C51",
   "status": "partial",
   "theorems": [
    "C51_partial",
    "C51_code",
    "C51_fresh",
    "C51_refuted"
   ],
   "note": "Exact condition under which a copy answers like the original (C51_partial); otherwise null eigenvalues or eigenvectors are read (C51_code, C51_refuted). C51_fresh: energies always belong to the current matrix. LAPACK is an oracle."
  },
  {
   "property": "C52",
   "status": "partial",
   "theorems": [
    "C52_partial",
    "C52_code",
    "C52_refuted"
   ],
   "note": "Lanczos recursion for all vectors and diagonal elements for all but the last, and for the last when the loop runs through (C52_partial). On early convergence the last diagonal element stays zero (C52_code, C52_refuted). The error estimate, norm and scalar product are oracles."
  },
  {
   "property": "C53",
   "status": "partial",
   "theorems": [
    "C53_last_mass",
    "C53_equal_masses_partial",
    "C53_zero_mass",
    "C53_copy_code",
    "C53_mass_refuted"
   ],
   "note": "Finding: 'factor = -1/(2 m_i)' assigns the whole vector, so the last mass is used for every dimension; exact behaviour proved, right for equal masses, full statement refuted. Fewer masses than dimensions: read outside the array."
  },
  {
   "property": "C54",
   "status": "partial",
   "theorems": [
    "C54_energy_code",
    "C54_energy_partial",
    "C54_copy_code",
    "C54_copy_partial",
    "C54_vectorpot_code",
    "C54_set_get",
    "C54_clock",
    "C54_energy_refuted",
    "C54_copy_refuted",
    "C54_full_refuted"
   ],
   "note": "PulseEnergy multiplies by scale instead of scale squared and operator= drops the scale factor; exact behaviour proved."
  },
  {
   "property": "C55",
   "status": "partial",
   "theorems": [
    "C55_grid",
    "C55_grid_kspace_code",
    "C55_level_partial",
    "C55_level_code",
    "C55_level_refuted"
   ],
   "note": "Grid wave functions satisfy it; WFLevel::Reduce compares signed components and erases every negative one."
  },
  {
   "property": "C56",
   "status": "partial",
   "theorems": [
    "C56_write_partial",
    "C56_write_short",
    "C56_read",
    "C56_read_short",
    "C56_empty_refuted"
   ],
   "note": "Holds for blocks that are not empty (C56_write_partial) and for all reads; refuted for empty blocks, where an uninitialised size is read."
  },
  {
   "property": "C57",
   "status": "partial",
   "theorems": [
    "C57_time",
    "C57_sync_partial",
    "C57_double_refuted",
    "C57_overflow_code"
   ],
   "note": "Exact in rational arithmetic (C57_sync_partial); refuted in double precision: a successful synchronisation can show a different time (1.8 vs 3*0.6)."
  },
  {
   "property": "C58",
   "status": "partial",
   "theorems": [
    "C58_string_form",
    "C58_buffer_form_partial",
    "C58_buffer_form_refuted"
   ],
   "note": "Finding: the buffer form indexes argv by the number of distinct options instead of optind; string form proved, buffer form proved under the condition that makes both agree, full statement refuted."
  },
  {
   "property": "C59",
   "status": "partial",
   "theorems": [
    "C59_small_grid_unchanged",
    "C59_block",
    "C59_mixed_refuted"
   ],
   "note": "Finding: with fewer than 16 points along the first dimension nothing is computed (proved for all inputs); on larger grids the last block is left out or the access is before the vector; refuted."
  },
  {
   "property": "C60",
   "status": "proved",
   "theorems": [
    "C60_tables",
    "C60_setup"
   ],
   "note": "Literals as decimal rationals, rounding to double not modelled."
  },
  {
   "property": "C61",
   "status": "partial",
   "theorems": [
    "C61_power_partial",
    "C61_power_out_of_bounds",
    "C61_full_refuted"
   ],
   "note": "From three time steps on the loop runs out of both arrays (proved); only up to two steps it is safe."
  },
  {
   "property": "C62",
   "status": "partial",
   "theorems": [
    "C62_laser",
    "C62_grid_header",
    "C62_negative_size",
    "C62_level_partial",
    "C62_matrix_partial",
    "C62_level_code",
    "C62_full_refuted"
   ],
   "note": "Partial: with a complete header the laser reads safely for all inputs; WFLevel and the matrix operator only when the length field is moderate. Refuted: WFLevel allocates after cutting the length to an int but reads the uncut number of bytes."
  },
  {
   "property": "C63",
   "status": "partial",
   "theorems": [
    "C63_multi",
    "C63_one",
    "C63_refuse",
    "C63_code",
    "C63_refuted"
   ],
   "note": "Distinct maps, single maps and refusal proved; without a state map the behaviour is undefined for every input (C63_code, C63_refuted)."
  },
  {
   "property": "C64",
   "status": "partial",
   "theorems": [
    "C64_xml_partial",
    "C64_simple_partial",
    "C64_refused",
    "C64_type",
    "C64_input_code",
    "C64_junk_refuted",
    "C64_long_code",
    "C64_long_simple_code",
    "C64_long_refuted",
    "C64_comment_refuted"
   ],
   "note": "Proved for files below 1024 bytes without the texts '/>' and '</' in the simplified format; refuted: the text handed over continues with uninitialised memory, files from 1024 bytes on make the type detection read behind its buffer, a comment with '</' makes a simplified input XML. What the code does is stated exactly by the _code theorems."
  },
  {
   "property": "C65",
   "status": "partial",
   "theorems": [
    "C65_classes",
    "C65_longest_match",
    "C65_read_back",
    "C65_writable",
    "C65_text_partial",
    "C65_quote_code",
    "C65_quote_refuted",
    "C65_quote_split_refuted",
    "C65_dropped_code",
    "C65_dropped_refuted",
    "C65_comment_code",
    "C65_comment_refuted"
   ],
   "note": "The longest match semantics of the rules and the reading back of written tokens are proved without restriction, and the translation from the text on as far as C45 holds; refuted: empty quoted texts and texts with other characters, characters without a rule (copied to the standard output, otherwise ignored), comments in a last line without line end."
  },
  {
   "property": "C66",
   "status": "partial",
   "theorems": [
    "C66_schedule",
    "C66_success_partial",
    "C66_session_partial",
    "C66_failure_partial",
    "C66_streams_code",
    "C66_no_command_code",
    "C66_set_get",
    "C66_required_partial",
    "C66_required_refuted",
    "C66_load_op_code",
    "C66_stale_code",
    "C66_set_code",
    "C66_operator_missing_code",
    "C66_operator_null_code",
    "C66_read_wf_code",
    "C66_silent_code",
    "C66_matel_code",
    "C66_scripts_partial",
    "C66_scripts_code",
    "C66_frame",
    "C66_frame_end_refuted",
    "C66_refuted"
   ],
   "note": "Refuted as stated. Proved for all environments and all interleavings: commands that work are answered exactly once, sessions of them of any length run to QUIT, and the failures in the list 'fails' are reported once. Violations are proved one by one: a failing LOAD_OP or a SET_GLOBAL_PARAMS without parameters leaves a surplus OK, GET_MATEL deadlocks with a client that waits for the confirmation, a missing operator is used as a null pointer, an unreadable wave function is sent as a null pointer, DELETE_OP, unknown operator classes and malformed parameters end the server without an answer, overlong parameter lines hang it; three responses lack required fields; five MATLAB scripts cannot complete."
  },
  {
   "property": "C67",
   "status": "partial",
   "theorems": [
    "C67_order",
    "C67_plan_total",
    "C67_plan_unique",
    "C67_document_total",
    "C67_directory_total",
    "C67_late_defs_code",
    "C67_defined_partial",
    "C67_empty",
    "C67_comment_code",
    "C67_dir_empty_code",
    "C67_comment_refuted",
    "C67_dir_empty_refuted",
    "C67_main",
    "C67_status_code",
    "C67_status_refuted",
    "C67_status_partial"
   ],
   "note": "Order, parameters, directory and failures are proved for every document with at least one element and a non-empty directory (C67_order with C67_plan_total/unique). Refuted parts: a collection with only comments reads the name of a NULL node, an empty directory reads in front of a string (C67_comment_refuted, C67_dir_empty_refuted), mistakes on the command line end with status 0 (C67_status_refuted)."
  },
  {
   "property": "C68",
   "status": "partial",
   "theorems": [
    "C68_one_partial",
    "C68_one_code",
    "C68_one_bra_refuted",
    "C68_one_first_refuted",
    "C68_two_partial",
    "C68_two_code",
    "C68_two_operators_refuted",
    "C68_two_bra_given_refuted",
    "C68_two_limit_refuted",
    "C68_bra_code",
    "C68_bra_refuted",
    "C68_bra_partial",
    "C68_size_code",
    "C68_cycle_code",
    "C68_shape",
    "C68_read_code",
    "C68_read_refuted",
    "C68_meta",
    "C68_read_names_code",
    "C68_series_code"
   ],
   "note": "The full statements are refuted: a bra that is given is one write cycle ahead of the ket and its initial operators act at the last time (C68_one_bra_refuted, C68_two_bra_given_refuted, C68_bra_refuted), initial operators of the ket replace the signal operators (C68_one_first_refuted), only the last of several operators between two propagators acts (C68_two_operators_refuted), one value beyond the limit is computed (C68_two_limit_refuted), and a series that was written can not be read (C68_read_refuted, C68_read_names_code). Proved for all inputs: what is computed (C68_one_code, C68_two_code, C68_bra_code), and that it is right without a definition of the bra and with one operator per time (C68_one_partial, C68_two_partial)."
  },
  {
   "property": "C69",
   "status": "partial",
   "theorems": [
    "C69_partial",
    "C69_restart_code",
    "C69_restart_refuted",
    "C69_negative_code",
    "C69_negative_refuted",
    "C69_failed_code",
    "C69_meta_code"
   ],
   "note": "Proved for propagations from the start with a positive write cycle (C69_partial). Refuted for restarted propagations (the number of the first file is not in the meta file, C69_restart_refuted, _code) and for negative write cycles, which the propagation accepts (C69_negative_refuted, _code). The time step, which goes through its text, is left out (see C70)."
  },
  {
   "property": "C70",
   "status": "partial",
   "theorems": [
    "C70_scan",
    "C70_print",
    "C70_refuted",
    "C70_partial",
    "C70_error",
    "C70_twice",
    "C70_array",
    "C70_array_empty_code",
    "C70_missing_code",
    "C70_ties",
    "C70_no_number_code",
    "C70_array_missing"
   ],
   "note": "Refuted as stated: ostream << writes six significant digits, so 1000001 comes back as 1000000 and 41.341373 as 41.3414 (this reaches dt and the grid limits in every meta file). Proved: reading is correctly rounded for every decimal text; writing gives the closest six-digit decimal; values given with at most six digits survive exactly (1e-307..1e307); every finite double is off by at most 1e-5 relatively with its sign kept; a second passage changes nothing; arrays are elementwise; an empty array comes back as an uninitialised element (UB)."
  },
  {
   "property": "C71",
   "status": "partial",
   "theorems": [
    "C71_reached",
    "C71_partial",
    "C71_conv_one_code",
    "C71_energies",
    "C71_table",
    "C71_restart",
    "C71_complete",
    "C71_refused",
    "C71_defined",
    "C71_diag_code",
    "C71_diag_orthonormal",
    "C71_diag_partial",
    "C71_refuted",
    "C71_diag_refuted"
   ],
   "note": "False as stated: a convergence criterion of 1 is accepted and no step is done, so every file holds the initial wave function (C71_refuted, C71_conv_one_code); the diagonalisation drops the imaginary parts of the matrix elements (C71_diag_refuted). Proved: orthonormality for every other criterion, the path of every state, energies, table, restart, refusals, orthonormality after the diagonalisation for any elements, diagonality for real ones. Norms, convergence distance, propagator, LAPACK are oracles with contracts."
  },
  {
   "property": "C72",
   "status": "partial",
   "theorems": [
    "C72_waves",
    "C72_signal",
    "C72_dft",
    "C72_partial",
    "C72_run",
    "C72_energy",
    "C72_files_code",
    "C72_refused",
    "C72_refuted"
   ],
   "note": "False as stated: for a propagation read from files the frequencies are computed from dt and steps of the input, not from the files (C72_refuted, exact behaviour C72_files_code). Proved for a propagation that is run, for all propagators, components and peaks (C72_run), and for files whose length is the one of the input (C72_partial); the general form without an assumption on the components is C72_dft. Exact arithmetic, window/transform/peak search as one oracle."
  },
  {
   "property": "C73",
   "status": "partial",
   "theorems": [
    "C73_partial",
    "C73_chain_partial",
    "C73_coup_code",
    "C73_chain_code",
    "C73_hermitian",
    "C73_layers_code",
    "C73_layers_chain_code",
    "C73_refused",
    "C73_dims_code",
    "C73_copy_code",
    "C73_emax_partial",
    "C73_emin",
    "C73_refuted",
    "C73_layers_refuted",
    "C73_layers_chain_refuted",
    "C73_dims_refuted",
    "C73_copy_refuted",
    "C73_emax_refuted"
   ],
   "note": "False as stated. Proved: without the product rule for all mixtures of elements unless the coordinates are uncoupled and an off-diagonal element is a grid function (C73_partial); with the product rule if all elements are grid functions that count (C73_chain_partial); hermiticity (C73_hermitian); refusal of other grids (C73_refused). Refuted with exact behaviour: uncoupled coordinates with off-diagonal grid functions and the product rule with constants use pointers never set (C73_coup_code, C73_chain_code); layers: outer transformation last for constants, inner one missing for grid functions, never refused with the product rule (C73_layers_code, C73_layers_chain_code); another number of dimensions (C73_dims_code); copies cannot be applied (C73_copy_code); Emax is no upper bound for constant off-diagonal elements (C73_emax_refuted, holds for 'fair' elements C73_emax_partial). Derivatives, layers and files are oracles."
  },
  {
   "property": "C74",
   "status": "partial",
   "theorems": [
    "C74_partial",
    "C74_read_back",
    "C74_apart",
    "C74_shared",
    "C74_arrays",
    "C74_stride_copy_refuted",
    "C74_refuted",
    "C74_divide_refuted",
    "C74_downsize_refuted",
    "C74_swap_strides_refuted",
    "C74_swap_ref_refuted",
    "C74_copysub_backwards_refuted",
    "C74_copysub_strides_refuted",
    "C74_retire_master_refuted",
    "C74_strideref_refuted",
    "C74_fastcopy_self_refuted",
    "C74_assign_leak_refuted",
    "C74_strideref_leak_refuted",
    "C74_newsize_refuted"
   ],
   "note": "The full statement (every legal sequence of calls is defined and leaks nothing) is false: C74_refuted and ten further witnesses (StrideCopy and StrideRef accept a stride behind the end, sizes not divisible by the strides, downsize, swap of different strides or of references, CopySub backwards or with strides, retiring a master, FastCopy onto itself; assignment to a vector of references and the first reference of an empty vector lose the pointer arrays). C74_partial: every sequence of proper calls (astep defined) runs without undefined behaviour, gives the answers of plain values and frees every block; C74_read_back, C74_apart, C74_shared are the laws of these values; C74_arrays: without references no pointer array is lost. Missing: calls outside astep that happen to work (e.g. references with source strides other than 0, references to vectors already referred to)."
  },
  {
   "property": "C75",
   "status": "proved",
   "theorems": [
    "C75_krotov",
    "C75_rabitz",
    "C75_freq",
    "C75_unique"
   ],
   "note": "proved for runs of the methods krotov, rabitz and freq with targets that do not move; propagator, coupling, scalar product, gobbler, filters and target operators are oracles, wave function buffers are exact arrays"
  },
  {
   "property": "C76",
   "status": "partial",
   "theorems": [
    "C76_overlap_refuted",
    "C76_operator_refuted",
    "C76_code"
   ],
   "note": "refuted: the field calculated on the way back is put into the lasers that are not used (the method is Rabitz without feedback), and operators are applied to the initial states; _code gives the exact behaviour of a whole run"
  },
  {
   "property": "C77",
   "status": "partial",
   "theorems": [
    "C77_refuted",
    "C77_krotov_code",
    "C77_rabitz_code",
    "C77_freq_code"
   ],
   "note": "refuted: the propagation of the guess overwrites the series, the targets are the states under the guess in all iterations; _code theorems"
  },
  {
   "property": "C78",
   "status": "partial",
   "theorems": [
    "C78_refuted",
    "C78_partial",
    "C78_none_code"
   ],
   "note": "refuted: the history starts with yields 1, 1, 1, so a first yield of 1 ends the run and a criterion of 1 or more makes no iteration; proved from the third iteration on, exact rule in C75"
  },
  {
   "property": "C79",
   "status": "partial",
   "theorems": [
    "C79_diagonal_refuted",
    "C79_upper_refuted",
    "C79_label_refuted",
    "C79_single_refuted",
    "C79_limit_refuted",
    "C79_partial",
    "C79_code"
   ],
   "note": "Partial: operators on the diagonal or only above it are overlooked, without a label two different operators opposite to each other dereference the missing label, a single operator without the label reports the size of the array as the number found, and more operators than there is room for are written behind the array. C79_partial holds when all that is asked for lies below the diagonals or opposite to such elements; C79_code says exactly what is found in every tree."
  },
  {
   "property": "C80",
   "status": "partial",
   "theorems": [
    "C80_refuted",
    "C80_partial",
    "C80_code"
   ],
   "note": "Partial: lasers on the diagonal are left out next to a transition; without labels a non-hermitian coupling, and a Hamiltonian that is a single laser, are undefined behaviour. C80_partial gives the statement for the other trees, C80_code the result in every case."
  },
  {
   "property": "C81",
   "status": "partial",
   "theorems": [
    "C81_restore_refuted",
    "C81_dim_refuted",
    "C81_resize_refuted",
    "C81_shape_refuted",
    "C81_partial",
    "C81_code"
   ],
   "note": "Proved for programs which keep the shape of wave functions that were transformed and in which plans are made by wisdom or overwrite only what the transform overwrites (C81_partial); C81_code says what happens in all programs that keep the shapes. Refuted in general: Restore as first transform (planning overwrites the data read), plans of a second dimension after a backward transform, use of freed storage after two assignments of another size, plans of the old shape after an assignment with the same number of points."
  },
  {
   "property": "C82",
   "status": "partial",
   "theorems": [
    "C82_wavek",
    "C82_single_refuted",
    "C82_mixed_refuted",
    "C82_coll_refuted",
    "C82_again_refuted",
    "C82_code",
    "C82_partial",
    "C82_nabla",
    "C82_emax_refuted",
    "C82_emax_code",
    "C82_exponent_refuted",
    "C82_exponent_code",
    "C82_copy_refuted",
    "C82_copy_code",
    "C82_energy_refuted",
    "C82_energy_partial",
    "C82_mass"
   ],
   "note": "Proved: single-dimension tables of all dimensions, the collective second derivative, OGridNabla's table, kinetic energy bounds for positive masses, which masses are accepted (C82_partial, C82_nabla, C82_energy_partial, C82_mass); C82_code gives all tables the code builds. Refuted: table of a dimension chosen with Dim (missing), mixed tables (one wave number only), collective first derivative (always second), re-initialisation on a larger grid (out of bounds), Emax of OGridNabla (smallest value), its exponential (sign, uninitialised real part), its copy (dimension lost), energy bounds with negative masses."
  },
  {
   "property": "C83",
   "status": "partial",
   "theorems": [
    "C83_nabla_refuted",
    "C83_nabla_partial",
    "C83_nabla_code",
    "C83_nabla_in",
    "C83_all",
    "C83_dim_refuted",
    "C83_dim_partial",
    "C83_add_partial",
    "C83_mixed_odd_refuted",
    "C83_mixed_refuted",
    "C83_mixed_code"
   ],
   "note": "Proved down to the storage model of C81: OGridNabla out of and in place except adjoint momentum, DnDxn in all dimensions, DnDxn and DnDxnAdd in one dimension when planning for it cannot overwrite the source. Refuted: adjoint of the momentum operator (sign changes), derivative in a second dimension of a derivative (planning overwrites it), mixed derivatives (first transform lost; a factor i missing for odd order); C83_nabla_code and C83_mixed_code say what is computed."
  },
  {
   "property": "C84",
   "status": "partial",
   "theorems": [
    "C84_eigen_refuted",
    "C84_step_refuted",
    "C84_eigen_partial",
    "C84_orthonormal",
    "C84_step_partial",
    "C84_step_field_partial",
    "C84_linear",
    "C84_norm",
    "C84_group",
    "C84_sign_code",
    "C84_degenerate_code"
   ],
   "note": "Refuted for equal potentials with a negative coupling, where the eigenvectors are exchanged (the coupling acts as its absolute value: C84_sign_code, C84_degenerate_code); proved everywhere else for the real numbers and for ordered fields with exact roots; linearity, norm, group property and reversal hold at every point."
  },
  {
   "property": "C85",
   "status": "partial",
   "theorems": [
    "C85_direction_refuted",
    "C85_time_refuted",
    "C85_states_refuted",
    "C85_partial",
    "C85_code",
    "C85_reverse",
    "C85_ready_refuted",
    "C85_refused",
    "C85_update_refuted",
    "C85_update_code"
   ],
   "note": "Refuted for direction changes after Init, for step zero after Init at another step, for two potentials without coupling, for a repeated Init after a failed one and for UpdateTime without coupling; C85_partial and C85_code give the exact behaviour for all histories; opposite propagators undo each other (C85_reverse)."
  },
  {
   "property": "C86",
   "status": "partial",
   "theorems": [
    "C86_window_refuted",
    "C86_barrier_refuted",
    "C86_reject_refuted",
    "C86_reject_code",
    "C86_window_partial",
    "C86_barrier_code",
    "C86_barrier_partial",
    "C86_left_pass",
    "C86_complementary",
    "C86_bounds_refuted",
    "C86_bounds_partial",
    "C86_apply",
    "C86_adjoint",
    "C86_absorbs",
    "C86_decay",
    "C86_expec",
    "C86_expec_new_refuted",
    "C86_exponential_refuted",
    "C86_exponential_partial",
    "C86_exponential_code",
    "C86_refused_refuted",
    "C86_again_code",
    "C86_copy_refuted",
    "C86_hermitian_refuted",
    "C86_copy_partial"
   ],
   "note": "Refuted for a cut-off at the first grid point (not a number), left passes in absorbing potentials (they wipe out the earlier right passes), cut-offs just outside of the grid (accepted), Emin with two right passes, Expec before Init (uninitialised flag), the exponential of a potential (real instead of imaginary, no absorption in the split operator), Init after a refusal and copies made before Init; the _partial and _code theorems give the exact behaviour."
  },
  {
   "property": "C87",
   "status": "partial",
   "theorems": [
    "C87_wave",
    "C87_norm",
    "C87_add",
    "C87_inverse",
    "C87_momentum",
    "C87_none_code",
    "C87_emax_refuted",
    "C87_copy_code",
    "C87_copy_refuted",
    "C87_copy_partial",
    "C87_stale_code",
    "C87_again_code",
    "C87_reject"
   ],
   "note": "Refuted for copies (undefined as soon as the operator has dimensions) and the energy bounds (both zero); everything else holds, the documented parameters k0, k1, .. are not read (C87_none_code). The example C87_law_ex uses the real numbers of the standard library."
  },
  {
   "property": "C88",
   "status": "partial",
   "theorems": [
    "C88_load",
    "C88_setzero",
    "C88_refused",
    "C88_retry_code",
    "C88_retry_refuted",
    "C88_retry_psi",
    "C88_rewrite_code",
    "C88_rewrite_refuted",
    "C88_rewrite_partial",
    "C88_apply",
    "C88_hermitian",
    "C88_energy",
    "C88_fits",
    "C88_copy"
   ],
   "note": "Refuted: after a failed load the operator reads no file any more and Init reports success (C88_retry_code), and a potential from a stream cannot be saved with a meta file (C88_rewrite_code); loading, bounds, hermiticity, fitting and copies hold in general."
  },
  {
   "property": "C89",
   "status": "partial",
   "theorems": [
    "C89_coupling_code",
    "C89_coupling_refuted",
    "C89_coupling_partial",
    "C89_refused",
    "C89_bounds_refuted",
    "C89_bounds_partial",
    "C89_exponential",
    "C89_again_code",
    "C89_again_refuted",
    "C89_retry_partial",
    "C89_copy_code",
    "C89_copy_refuted",
    "C89_copy_partial",
    "C89_copy_pulse_code",
    "C89_pulse_code",
    "C89_pulse_refuted",
    "C89_pulse_partial",
    "C89_field"
   ],
   "note": "The coupling is scale*(mu+offset) with the scale of the file's parameters once more (C89_coupling_code): false for streams with a scale (C89_coupling_refuted), true otherwise (C89_coupling_partial). Emax bounds the energies only for non-negative fields and dipoles (C89_bounds_refuted, C89_bounds_partial). A second Init keeps the old laser (C89_again_refuted). Copies lose the laser scale and the parameters of pulses (C89_copy_refuted, C89_copy_pulse_code); equal with equal scales (C89_copy_partial). Pulses are as specified whenever their width is not zero; the default width is zero below eight steps (C89_pulse_refuted)."
  },
  {
   "property": "C90",
   "status": "partial",
   "theorems": [
    "C90_init",
    "C90_runs",
    "C90_krylov",
    "C90_step",
    "C90_projection_refuted",
    "C90_projection_partial",
    "C90_order_code",
    "C90_hermitian_partial",
    "C90_diagonal_refuted",
    "C90_exact_refuted",
    "C90_exact_partial",
    "C90_history_refuted",
    "C90_history_partial",
    "C90_copy_refuted",
    "C90_copy_partial"
   ],
   "note": "Init, running, Krylov exactness and the step law hold; projection, diagonalisability, exactness without normalisation, independence of history and copies refuted with witnesses, exact conditions in the partial theorems."
  },
  {
   "property": "C91",
   "status": "partial",
   "theorems": [
    "C91_load_code",
    "C91_load_refuted",
    "C91_load_again_refuted",
    "C91_load_partial",
    "C91_zero",
    "C91_retry_refuted",
    "C91_retry_code",
    "C91_size",
    "C91_exponents_code",
    "C91_exponents_refuted",
    "C91_exponents_partial",
    "C91_transform_code",
    "C91_transform_refuted",
    "C91_transform_partial",
    "C91_apply",
    "C91_coupling_code",
    "C91_coupling_refuted",
    "C91_coupling_partial",
    "C91_dipole_exponents",
    "C91_dipole_zero_code",
    "C91_dipole_zero_refuted",
    "C91_bounds_refuted",
    "C91_bounds_partial"
   ],
   "note": "Loading, exponents, transformation, retry, coupling, setzero of dipoles and bounds are false in general (_refuted, with what the code does in _code and where the claim holds in _partial); size, apply and the zeroed eigenvalue are proved."
  },
  {
   "property": "C92",
   "status": "partial",
   "theorems": [
    "C92_strip_code",
    "C92_strip_refuted",
    "C92_create_sound",
    "C92_exists",
    "C92_create_partial",
    "C92_create_refuted",
    "C92_dots_code",
    "C92_remove",
    "C92_remove_done",
    "C92_undo",
    "C92_is_file",
    "C92_is_dir_code",
    "C92_is_dir_refuted",
    "C92_parent"
   ],
   "note": "CreateDir is sound for all paths; that every missing path is made is false for dot components (C92_create_refuted, C92_dots_code) and proved for plain ones; StripLast and IsDir are not total (_refuted, _code). Remove, IsFile and undoing are proved."
  },
  {
   "property": "C93",
   "status": "partial",
   "theorems": [
    "C93_init",
    "C93_sizes_refuted",
    "C93_sizes_code",
    "C93_field_refuted",
    "C93_triangle_refuted",
    "C93_unity_refuted",
    "C93_step_partial",
    "C93_norm_partial",
    "C93_add_partial",
    "C93_undo_partial",
    "C93_linear",
    "C93_cached_code",
    "C93_diag_refuted",
    "C93_diag_partial",
    "C93_missing_code",
    "C93_coupling_refuted",
    "C93_dropped_code",
    "C93_external_code",
    "C93_identity_refuted",
    "C93_identity_partial",
    "C93_unset_code"
   ],
   "note": "Proved: which matrices are refused, linearity; the exponential, weight, addition and reversal for symmetric grid matrices without fields (partial), diagonal matrices with all elements (partial), transformed elements with one normalisation (partial). Refuted: states of different size refused, fields, lower triangle, missing diagonal elements with unity, diagonal matrices with missing elements, couplings beside transformed elements, different normalisations."
  },
  {
   "property": "C94",
   "status": "partial",
   "theorems": [
    "C94_static",
    "C94_wave",
    "C94_wave_name",
    "C94_oper_name_code",
    "C94_oper_name_refuted",
    "C94_history",
    "C94_failed",
    "C94_search_code",
    "C94_search_partial",
    "C94_search_refuted",
    "C94_safe_partial",
    "C94_safe_refuted",
    "C94_user_code",
    "C94_user_refuted",
    "C94_handbook_partial",
    "C94_handbook_refuted",
    "C94_send"
   ],
   "note": "Exact for the default build; refuted with exact descriptions: operators under their class name, the documented search, safety of the name expansion, empty modpath, availability of Jump with dynamic modules."
  },
  {
   "property": "C95",
   "status": "partial",
   "theorems": [
    "C95_init",
    "C95_file_partial",
    "C95_file_refuted",
    "C95_apply",
    "C95_handbook",
    "C95_before_code",
    "C95_before_refuted",
    "C95_copy",
    "C95_again",
    "C95_refused",
    "C95_adjoint",
    "C95_coupling",
    "C95_mirror_refuted",
    "C95_emax_partial",
    "C95_emax_refuted",
    "C95_emin_code",
    "C95_emin_refuted"
   ],
   "note": "Apply, formula, anti-hermiticity, coupling, copies and refusals proved; refuted: file name of one dimension without mass, use before Init, mirrored element in a hermitian matrix, Emax for negative couplings, Emin."
  },
  {
   "property": "C96",
   "status": "partial",
   "theorems": [
    "C96_coupling_code",
    "C96_coupling_refuted",
    "C96_coupling_partial",
    "C96_fields",
    "C96_refused",
    "C96_exchange",
    "C96_exponential_code",
    "C96_exponential_refuted",
    "C96_exponential_partial",
    "C96_bounds_code",
    "C96_bounds_refuted",
    "C96_copy_partial",
    "C96_copy_refuted",
    "C96_again"
   ],
   "note": "Fields, refusals and exchange proved; coupling proved up to the factor -1/2 and without file scale; refuted: factor, exponent (-1 instead of -1/2), lower bound of the energy, copies."
  },
  {
   "property": "C97",
   "status": "partial",
   "theorems": [
    "C97_value_code",
    "C97_value_refuted",
    "C97_element",
    "C97_outgoing_code",
    "C97_outgoing_refuted",
    "C97_conserved",
    "C97_two_refuted",
    "C97_two_partial",
    "C97_few",
    "C97_apply",
    "C97_init_twice",
    "C97_defined_refuted",
    "C97_copy_refuted",
    "C97_copy_partial",
    "C97_copy_defined_refuted",
    "C97_copy_defined_partial",
    "C97_copy_size_refuted"
   ],
   "note": "Value proved up to the sign (code gives the inflow), conservation, Init proved; refuted: sign, number of operators after a second Init, use before Init, copies."
  },
  {
   "property": "C98",
   "status": "partial",
   "theorems": [
    "C98_safe",
    "C98_alive_refuted",
    "C98_no_leak_partial",
    "C98_no_leak_refuted",
    "C98_find_refuted",
    "C98_find_partial",
    "C98_set_partial",
    "C98_unnamed_refuted",
    "C98_unnamed_partial",
    "C98_refused",
    "C98_clear",
    "C98_clear_ends",
    "C98_clear_frees_partial",
    "C98_copy"
   ],
   "note": "Safety holds for all programs that hold a reference of their own to what they hand over. Without it Set(key, Get(key)) destroys a listed wave function; a generated key can replace a given one and its wave function leaks; the empty key is not found again."
  },
  {
   "property": "C99",
   "status": "partial",
   "theorems": [
    "C99_table_partial",
    "C99_table_refuted",
    "C99_refused",
    "C99_kind",
    "C99_stays_refuted",
    "C99_stays_code",
    "C99_overflow_code",
    "C99_apply_partial",
    "C99_hermitian_partial",
    "C99_again_code",
    "C99_bounds_partial",
    "C99_bounds_refuted",
    "C99_bounds_code",
    "C99_copy_partial",
    "C99_copy_refuted"
   ],
   "note": "Table, application and hermiticity are proved for grids with at least two points per dimension. One point gives not-a-number; a refused dimension is accepted by the next Init with a table of zeros; bounds ignore the scale and are undefined without a dimension and in copies."
  },
  {
   "property": "C100",
   "status": "partial",
   "theorems": [
    "C100_apply",
    "C100_value_partial",
    "C100_value_refuted",
    "C100_value_code",
    "C100_element",
    "C100_before_code",
    "C100_valid",
    "C100_bounds",
    "C100_hermitian_partial",
    "C100_hermitian_refuted",
    "C100_copy",
    "C100_norm",
    "C100_norm_some",
    "C100_norm_zero",
    "C100_short_code"
   ],
   "note": "Application, matrix elements, bounds, copies and the normalisation are proved. The default of value is 0 instead of 1, and a complex constant calls itself hermitian."
  },
  {
   "property": "C101",
   "status": "partial",
   "theorems": [
    "C101_apply_partial",
    "C101_apply_refuted",
    "C101_zero_code",
    "C101_masses_refuted",
    "C101_masses_code",
    "C101_linear",
    "C101_plain",
    "C101_adjoint_refuted",
    "C101_adjoint_code",
    "C101_emax",
    "C101_init",
    "C101_copy_partial",
    "C101_copy_refuted",
    "C101_copy_code",
    "C101_conj_kept"
   ],
   "note": "Application is proved for masses that are not 0, one per dimension. A mass 0 divides by 0, missing masses are undefined behaviour, the conjugate flag does not give the adjoint and is not copied."
  },
  {
   "property": "C102",
   "status": "partial",
   "theorems": [
    "C102_single",
    "C102_readonly_code",
    "C102_series",
    "C102_missing",
    "C102_refused",
    "C102_ends",
    "C102_run_exists",
    "C102_lossless",
    "C102_lossy",
    "C102_level_code",
    "C102_number_code",
    "C102_nothing_code",
    "C102_default_refuted",
    "C102_bzip_refuted",
    "C102_level0_refuted",
    "C102_tolerance_refuted",
    "C102_status_refuted",
    "C102_complete_refuted"
   ],
   "note": "proved: the exact effect of a run on a single file and on a series (C102_single, C102_series, C102_missing, C102_refused), that a run exists and ends, losslessness and the error bound; refuted: the default method, bzip2, level 0, the limit of the tolerance, the exit status and completeness of a series; C102_*_code say what the code does instead"
  },
  {
   "property": "C103",
   "status": "partial",
   "theorems": [
    "C103_table_code",
    "C103_table_partial",
    "C103_stop",
    "C103_precision_partial",
    "C103_format",
    "C103_negative",
    "C103_spectrum_partial",
    "C103_single_code",
    "C103_stationary",
    "C103_axis_partial",
    "C103_axis_refuted",
    "C103_table_refuted",
    "C103_precision_refuted",
    "C103_spectrum_refuted",
    "C103_defined_partial",
    "C103_defined_refuted",
    "C103_unwritable_code",
    "C103_unwritable_refuted",
    "C103_done_code",
    "C103_done_refuted"
   ],
   "note": "Proved for all options and runs: the table (titles, values, order), the spectrum of a complete run as windowed forward sum, the single peak of a stationary state, the end of the table at a bad norm. Refuted with exact code theorems: conjugated projection column, one decimal without norm and energy, middle frequency for odd N, uninitialised rest of the buffer after an early end, termination if the file cannot be opened, number of steps in the closing message."
  },
  {
   "property": "C104",
   "status": "partial",
   "theorems": [
    "C104_open_partial",
    "C104_open_code",
    "C104_full",
    "C104_open_refuted",
    "C104_array_partial",
    "C104_read_code",
    "C104_array_refuted",
    "C104_map_partial",
    "C104_map_code",
    "C104_map_refuted",
    "C104_resize_code",
    "C104_remap_code",
    "C104_write_code",
    "C104_resize_refuted",
    "C104_clean_partial",
    "C104_clean_refuted",
    "C104_unmap_code",
    "C104_unmap_refuted",
    "C104_foreign_code",
    "C104_foreign_refuted"
   ],
   "note": "Proved for all systems and sequences of calls: opening, write and read laws, mapped memory, unmapped Resize, and that nothing is left behind without exceptions and without Resize of mapped files. Refuted with exact code theorems: 4 GiB files, long transfers, failed mappings, size after Resize, unmapping after Resize, files left after exceptions, use of a closed descriptor."
  },
  {
   "property": "C105",
   "status": "partial",
   "theorems": [
    "C105_indent",
    "C105_lines",
    "C105_empty_code",
    "C105_text_partial",
    "C105_text_refuted",
    "C105_debug_refuted",
    "C105_place_refuted",
    "C105_debug_code",
    "C105_place_code",
    "C105_second",
    "C105_suppress_partial",
    "C105_suppress_refuted",
    "C105_before",
    "C105_stale_code",
    "C105_header_partial",
    "C105_order",
    "C105_width",
    "C105_header_refuted",
    "C105_long_code"
   ],
   "note": "Texts: refinement for all programs in which indented lines are complete at every flush and nothing waits when debug output or the place is switched (C105_text_partial); without these conditions refuted. Suppression: proved for everything but headers, which are refuted. Headers: proved for titles that leave 4 characters (sections), refuted otherwise."
  },
  {
   "property": "C106",
   "status": "partial",
   "theorems": [
    "C106_make",
    "C106_can",
    "C106_failed_partial",
    "C106_failed_refuted",
    "C106_failed_code",
    "C106_again_code",
    "C106_program_partial",
    "C106_end",
    "C106_program_refuted",
    "C106_taken_code",
    "C106_unique_refuted",
    "C106_unique_code"
   ],
   "note": "Proved for programs whose constructors succeed or fail at the first step (C106_program_partial, C106_end); refuted for constructors that fail later, for the unique name, and for FIFOs removed by others."
  },
  {
   "property": "C107",
   "status": "partial",
   "theorems": [
    "C107_children_partial",
    "C107_children_code",
    "C107_children_refuted",
    "C107_checked_partial",
    "C107_checked_refuted",
    "C107_filters",
    "C107_only",
    "C107_walk_partial",
    "C107_walk_refuted",
    "C107_section_partial",
    "C107_section_code",
    "C107_section_refuted",
    "C107_instr_code",
    "C107_attributes_partial",
    "C107_missing",
    "C107_attributes_code",
    "C107_attributes_refuted"
   ],
   "note": "Filters proved for all documents; the other loops for nodes with element children (sums and propagators also without any child), the whole document if every element has no child or an element child; sections if there are children and no instruction has the name; attributes of one part. Refuted without these conditions."
  },
  {
   "property": "C108",
   "status": "partial",
   "theorems": [
    "C108_info_partial",
    "C108_only",
    "C108_refused",
    "C108_written",
    "C108_short_code",
    "C108_negative_code",
    "C108_unended_code",
    "C108_convert_partial",
    "C108_translated",
    "C108_unopened",
    "C108_failed_code",
    "C108_idle_code",
    "C108_info_refuted",
    "C108_convert_refuted"
   ],
   "note": "Shown: all stream files with headers below 2 GiB, in particular all that are written; only stream files with complete headers are shown. Refuted for damaged headers, which are shown with success, undefined or terminate the program. qds2qdi: success means a written translation if a name is given; refuted without a name and for the output after errors."
  },
  {
   "property": "C109",
   "status": "partial",
   "theorems": [
    "C109_product_refuted",
    "C109_product_partial",
    "C109_flat_code",
    "C109_high_code",
    "C109_turned_code",
    "C109_other_code",
    "C109_calls",
    "C109_components",
    "C109_eigen",
    "C109_norm",
    "C109_sum",
    "C109_linear",
    "C109_inverse",
    "C109_null_code"
   ],
   "note": "Products with matrices that are not square leave memory (C109_product_refuted); proved for square ones, which are all that the operators use, together with all statements about the change of basis."
  },
  {
   "property": "C110",
   "status": "partial",
   "theorems": [
    "C110_albrecht_refuted",
    "C110_albrecht_partial",
    "C110_balanced",
    "C110_kept",
    "C110_alb_refused",
    "C110_stokes_code",
    "C110_stokes_refuted",
    "C110_stokes_partial",
    "C110_stokes_refused",
    "C110_kick_refuted",
    "C110_kick_partial",
    "C110_twice_code",
    "C110_density",
    "C110_dims_code",
    "C110_gs_refused",
    "C110_default"
   ],
   "note": "Refuted: OGridStokes for weights other than one (sign and unset memory), OGridStokesAlbrecht for states that are not normalised, OGridGStokes after repeated initialisation; each proved otherwise."
  },
  {
   "property": "C111",
   "status": "partial",
   "theorems": [
    "C111_shown_refuted",
    "C111_shown_partial",
    "C111_missing_code",
    "C111_file",
    "C111_incompatible",
    "C111_incompatible2",
    "C111_class",
    "C111_param_refuted",
    "C111_param_partial",
    "C111_int",
    "C111_int_unique",
    "C111_double",
    "C111_double_refuted",
    "C111_errno_refuted",
    "C111_errno_code",
    "C111_memory_code",
    "C111_cut_code"
   ],
   "note": "The missing parameters given to EParamProblem never reach the message, its reason follows without separator, system errors outside a short list share one text and doubles are shown with six digits; everything else is shown and told apart."
  },
  {
   "property": "C112",
   "status": "partial",
   "theorems": [
    "C112_layers_refuted",
    "C112_layers_partial",
    "C112_local_code",
    "C112_home",
    "C112_nothing",
    "C112_one",
    "C112_read_refuted",
    "C112_read_partial",
    "C112_ignored_code",
    "C112_defined_refuted",
    "C112_unset_code",
    "C112_defined_partial",
    "C112_broken_code",
    "C112_once",
    "C112_again"
   ],
   "note": "The local file replaces the settings of the home directory instead of going before them, read-only files are ignored, and an unset HOME is undefined behaviour; with one file, writable files and HOME set it holds."
  },
  {
   "property": "C113",
   "status": "partial",
   "theorems": [
    "C113_linear",
    "C113_sum",
    "C113_exclusive",
    "C113_progress",
    "C113_bounded",
    "C113_result_refuted",
    "C113_unlocked_refuted",
    "C113_create_refuted",
    "C113_create_code"
   ],
   "note": "Holds with working locks except for returned values; the code never has working locks: with OpenMP the lock pointer is not set, without it there is none."
  }
 ]
}