{
 "claims": [
  {
   "property": "C01",
   "status": "proved",
   "theorems": [
    "C01_circular_distance"
   ],
   "note": ""
  },
  {
   "property": "C02",
   "status": "proved",
   "theorems": [
    "C02_outside_one_period",
    "C02_docstring_refuted"
   ],
   "note": "the docstring claim is refuted for angles more than a period apart"
  },
  {
   "property": "C03",
   "status": "proved",
   "theorems": [
    "C03_residuals",
    "C03_residuals_raise"
   ],
   "note": "data with a nan wavelength or angle, or without a mask, are outside the model"
  },
  {
   "property": "C04",
   "status": "proved",
   "theorems": [
    "C04_chisqr",
    "C04_perfect_fit"
   ],
   "note": ""
  },
  {
   "property": "C05",
   "status": "proved",
   "theorems": [
    "C05_logl",
    "C05_logl_plain"
   ],
   "note": ""
  },
  {
   "property": "C06",
   "status": "proved",
   "theorems": [
    "C06_logpost"
   ],
   "note": ""
  },
  {
   "property": "C07",
   "status": "proved",
   "theorems": [
    "C07_extra_ignored",
    "C07_documentation_refuted"
   ],
   "note": "documented claim refuted: the functions are never called"
  },
  {
   "property": "C08",
   "status": "proved",
   "theorems": [
    "C08_setp_varying",
    "C08_varying_parameters",
    "C08_setp_full",
    "C08_setp_wrong"
   ],
   "note": ""
  },
  {
   "property": "C09",
   "status": "proved",
   "theorems": [
    "C09_history_irrelevant"
   ],
   "note": "histories of residuals, chisqr, logp, logl, logpost, setp, covar and assignments to structure.wavelength"
  },
  {
   "property": "C10",
   "status": "proved",
   "theorems": [
    "C10_covar_restores"
   ],
   "note": "approx_derivative is any procedure that evaluates at vectors of the right length"
  },
  {
   "property": "C11",
   "status": "proved",
   "theorems": [
    "C11_prior_transform",
    "C11_increasing",
    "C11_short"
   ],
   "note": ""
  },
  {
   "property": "C12",
   "status": "proved",
   "theorems": [
    "C12_second_objective",
    "C12_independence_refuted"
   ],
   "note": "true for equal conventions or different models, refuted otherwise"
  },
  {
   "property": "C13",
   "status": "proved",
   "theorems": [
    "C13_batch_pointwise",
    "C13_batch_from_points",
    "C13_permutation",
    "C13_angles_pointwise",
    "C13_coh_tmm_pointwise",
    "C13_coh_tmm_from_points"
   ],
   "note": ""
  },
  {
   "property": "C14",
   "status": "proved",
   "theorems": [
    "C14_integers_truncate",
    "C14_towards_zero",
    "C14_dtype_irrelevant_refuted"
   ],
   "note": "refuted, with the exact effect"
  },
  {
   "property": "C15",
   "status": "proved",
   "theorems": [
    "C15_independent_of_wavelength",
    "C15_wavelength_afterwards",
    "C15_after_exception",
    "C15_state_afterwards"
   ],
   "note": ""
  },
  {
   "property": "C16",
   "status": "proved",
   "theorems": [
    "C16_psi_delta_encode",
    "C16_degenerate"
   ],
   "note": "Including the cases in which an amplitude vanishes."
  },
  {
   "property": "C17",
   "status": "proved",
   "theorems": [
    "C17_reflect_delta_folds"
   ],
   "note": ""
  },
  {
   "property": "C18",
   "status": "proved",
   "theorems": [
    "C18_ignored_inputs"
   ],
   "note": ""
  },
  {
   "property": "C19",
   "status": "proved",
   "theorems": [
    "C19_normal_incidence_amplitudes",
    "C19_normal_incidence"
   ],
   "note": ""
  },
  {
   "property": "C20",
   "status": "proved",
   "theorems": [
    "C20_supplementary_angle",
    "C20_opposite_angle",
    "C20_opposite_angle_TIR_refuted"
   ],
   "note": "Passive films without total reflection in the backing; the restriction is shown to be necessary."
  },
  {
   "property": "C21",
   "status": "proved",
   "theorems": [
    "C21_scaling"
   ],
   "note": ""
  },
  {
   "property": "C22",
   "status": "proved",
   "theorems": [
    "C22_boundary_value_problem",
    "C22_end_to_end"
   ],
   "note": "Below the opaque cut-off; see C30 above it and C26 for total reflection."
  },
  {
   "property": "C23",
   "status": "proved",
   "theorems": [
    "C23_zero_layer"
   ],
   "note": "Whenever both calculations are finite; C28 says when they are."
  },
  {
   "property": "C24",
   "status": "proved",
   "theorems": [
    "C24_split_layer"
   ],
   "note": "Whenever both calculations are finite; C28 says when they are."
  },
  {
   "property": "C25",
   "status": "proved",
   "theorems": [
    "C25_inner_branch_irrelevant"
   ],
   "note": ""
  },
  {
   "property": "C26",
   "status": "proved",
   "theorems": [
    "C26_backing_absorbing",
    "C26_backing_transparent",
    "C26_total_reflection_wrong",
    "C26_backing_decays_refuted"
   ],
   "note": "False as an unconditional claim: refuted for total reflection, proved elsewhere."
  },
  {
   "property": "C27",
   "status": "proved",
   "theorems": [
    "C27_passive",
    "C27_lossless",
    "C27_lossless_RT"
   ],
   "note": ""
  },
  {
   "property": "C28",
   "status": "proved",
   "theorems": [
    "C28_defined"
   ],
   "note": "No layer exactly at its critical angle."
  },
  {
   "property": "C29",
   "status": "proved",
   "theorems": [
    "C29_reciprocity"
   ],
   "note": ""
  },
  {
   "property": "C30",
   "status": "proved",
   "theorems": [
    "C30_opaque_cutoff",
    "C30_cutoff_only_above",
    "C13_coh_tmm_pointwise"
   ],
   "note": "First layer opaque, any further layers below the cut-off."
  },
  {
   "property": "C31",
   "status": "proved",
   "theorems": [
    "C31_linear_volume_average",
    "C31_linear_limits"
   ],
   "note": ""
  },
  {
   "property": "C32",
   "status": "proved",
   "theorems": [
    "C32_maxwell_garnett",
    "C32_maxwell_garnett_limits"
   ],
   "note": ""
  },
  {
   "property": "C33",
   "status": "proved",
   "theorems": [
    "C33_bruggeman",
    "C33_bruggeman_symmetric",
    "C33_bruggeman_factor_one"
   ],
   "note": ""
  },
  {
   "property": "C34",
   "status": "proved",
   "theorems": [
    "C34_bruggeman_pure_limit",
    "C34_bruggeman_wrong_root",
    "C34_bruggeman_pure_limit_refuted"
   ],
   "note": "The unconditional claim is refuted; the exact condition and the value returned otherwise are proved."
  },
  {
   "property": "C35",
   "status": "proved",
   "theorems": [
    "C35_self_mixture"
   ],
   "note": ""
  },
  {
   "property": "C36",
   "status": "proved",
   "theorems": [
    "C36_unknown_rule"
   ],
   "note": ""
  },
  {
   "property": "C37",
   "status": "proved",
   "theorems": [
    "C37_between_constituents"
   ],
   "note": ""
  },
  {
   "property": "C38",
   "status": "proved",
   "theorems": [
    "C38_linear_passive",
    "C38_maxwell_garnett_passive",
    "C38_bruggeman_passive_dielectrics",
    "C38_bruggeman_metals_gain",
    "C38_bruggeman_passive_refuted"
   ],
   "note": "bruggeman: true for two dielectrics, false for every pair of metals."
  },
  {
   "property": "C39",
   "status": "proved",
   "theorems": [
    "C39_setter",
    "C39_history",
    "C39_constructor_refuted"
   ],
   "note": "constructor half refuted"
  },
  {
   "property": "C40",
   "status": "proved",
   "theorems": [
    "C40_table",
    "C40_one_row_each",
    "C40_empty",
    "C40_bad_ends",
    "C40_index_error"
   ],
   "note": "default interfaces, contract <= 0; refnx micro-slabs and contraction are parameters of the model"
  },
  {
   "property": "C41",
   "status": "proved",
   "theorems": [
    "C41_reversed",
    "C41_exists_unique",
    "C41_twice"
   ],
   "note": ""
  },
  {
   "property": "C42",
   "status": "proved",
   "theorems": [
    "C42_solvated",
    "C42_no_fraction",
    "C42_unknown_rule",
    "C42_solvent_error",
    "C43_unsolvated_layer"
   ],
   "note": ""
  },
  {
   "property": "C43",
   "status": "proved",
   "theorems": [
    "C43_bruggeman_refuted",
    "C43_unsolvated_layer",
    "C43_metal"
   ],
   "note": "refuted; exact conditions proved"
  },
  {
   "property": "C44",
   "status": "proved",
   "theorems": [
    "C44_or",
    "C44_or_invalid",
    "C44_associative",
    "C44_chain",
    "C44_in_place"
   ],
   "note": ""
  },
  {
   "property": "C45",
   "status": "proved",
   "theorems": [
    "C45_settings_kept_refuted",
    "C45_copy",
    "C44_or"
   ],
   "note": "refuted; what is kept is proved"
  },
  {
   "property": "C46",
   "status": "proved",
   "theorems": [
    "C46_repeat"
   ],
   "note": ""
  },
  {
   "property": "C47",
   "status": "proved",
   "theorems": [
    "C47_constructor_append",
    "C47_constructor_filters"
   ],
   "note": ""
  },
  {
   "property": "C48",
   "status": "proved",
   "theorems": [
    "C48_align",
    "C48_invalid"
   ],
   "note": "refnx sld_profile is a parameter of the model"
  },
  {
   "property": "C49",
   "status": "proved",
   "theorems": [
    "C49_nm_eV_involution",
    "C49_nm_eV_decreasing"
   ],
   "note": ""
  },
  {
   "property": "C50",
   "status": "proved",
   "theorems": [
    "C50_table_interpolates",
    "C50_interpolant_unique",
    "C50_table_bounds"
   ],
   "note": "linear interpolation between nodes, end values outside, bounds for any table"
  },
  {
   "property": "C51",
   "status": "proved",
   "theorems": [
    "C51_file_lookup",
    "C51_file_lookup_transparent",
    "C51_triple_lookup",
    "C51_single_row"
   ],
   "note": "a file of one row cannot be used: C51_single_row"
  },
  {
   "property": "C52",
   "status": "proved",
   "theorems": [
    "C52_triple_effect",
    "C52_input_preserved_refuted",
    "C52_list_unusable"
   ],
   "note": "the claim is false of the code: the exact effect on memory and a witness"
  },
  {
   "property": "C53",
   "status": "proved",
   "theorems": [
    "C53_name_from_path_refuted"
   ],
   "note": "the claim is false of the code for every path"
  },
  {
   "property": "C54",
   "status": "proved",
   "theorems": [
    "C54_default_unused",
    "C54_default_used"
   ],
   "note": ""
  },
  {
   "property": "C55",
   "status": "proved",
   "theorems": [
    "C55_cauchy_formula",
    "C55_cauchy_decreasing",
    "C55_cauchy_increasing"
   ],
   "note": ""
  },
  {
   "property": "C56",
   "status": "proved",
   "theorems": [
    "C56_sellmeier_formula",
    "C56_sellmeier_index",
    "C56_sellmeier_resonance",
    "C56_sellmeier_decreasing"
   ],
   "note": ""
  },
  {
   "property": "C57",
   "status": "proved",
   "theorems": [
    "C57_lorentz_absorption",
    "C57_lorentz_passive",
    "C57_lorentz_epsilon_passive",
    "C57_lorentz_defined",
    "C57_lorentz_reality",
    "C57_lorentz_order",
    "C57_lorentz_additive",
    "C57_lorentz_term",
    "C57_lorentz_causal"
   ],
   "note": ""
  },
  {
   "property": "C58",
   "status": "proved",
   "theorems": [
    "C58_gauss_passive",
    "C58_gauss_absorption",
    "C58_gauss_odd",
    "C58_gauss_order",
    "C58_gauss_additive",
    "C58_gauss_beyond"
   ],
   "note": "scipy.fftpack.hilbert is an arbitrary length-preserving function; broadening > 0 (zero broadening puts nan on the grid)"
  },
  {
   "property": "C59",
   "status": "proved",
   "theorems": [
    "C59_tl_absorption",
    "C59_tl_below_gap",
    "C59_tl_passive",
    "C59_tl_index_passive",
    "C59_tl_order",
    "C59_tl_additive"
   ],
   "note": ""
  },
  {
   "property": "C60",
   "status": "proved",
   "theorems": [
    "C60_tl_finite",
    "C60_tl_wide_nan",
    "C60_tl_edge_nan",
    "C60_tl_domain_refuted"
   ],
   "note": "false on the documented domain; the exact domain is proved"
  },
  {
   "property": "C61",
   "status": "proved",
   "theorems": [
    "C61_lengths",
    "C61_elements"
   ],
   "note": ""
  },
  {
   "property": "C62",
   "status": "proved",
   "theorems": [
    "C62_materials_passive",
    "C62_materials_sorted",
    "C62_materials_unknown",
    "C62_materials_ranges",
    "C62_materials_listed",
    "C62_aluminium_oxide_absorbs",
    "C62_polymer_diffuse_is_pnipam"
   ],
   "note": "tables copied from the bundled csv files as scaled integers"
  },
  {
   "property": "C63",
   "status": "proved",
   "theorems": [
    "C63_getters",
    "C63_all_true",
    "C63_wrong_length_raises",
    "C63_setter"
   ],
   "note": "masks are boolean arrays"
  },
  {
   "property": "C64",
   "status": "proved",
   "theorems": [
    "C64_none_adds_an_axis",
    "C64_none_clears_refuted",
    "C64_none_length"
   ],
   "note": "refuted, with the exact effect"
  },
  {
   "property": "C65",
   "status": "proved",
   "theorems": [
    "C65_partition"
   ],
   "note": "finite wavelengths"
  },
  {
   "property": "C66",
   "status": "proved",
   "theorems": [
    "C66_save_load",
    "C66_mask_not_saved"
   ],
   "note": "printing and parsing of single numbers are parameters; each entry of the data is assumed to survive them"
  },
  {
   "property": "C67",
   "status": "proved",
   "theorems": [
    "C67_header_skipped",
    "C67_header_irrelevant",
    "C67_hundred_lines"
   ],
   "note": ""
  },
  {
   "property": "C68",
   "status": "proved",
   "theorems": [
    "C68_handle_loses_rows",
    "C68_handle_same_data_refuted",
    "C68_refresh_keeps_flags",
    "C68_refresh_consistent_refuted",
    "C68_write_mode_truncates"
   ],
   "note": "refuted, with the exact effect; the default mode of refnx possibly_open_file is a parameter"
  },
  {
   "property": "C69",
   "status": "proved",
   "theorems": [
    "C69_reflection",
    "C69_folding"
   ],
   "note": ""
  },
  {
   "property": "C70",
   "status": "proved",
   "theorems": [
    "C70_copy_folds_original",
    "C70_copy_refreshes",
    "C70_no_alias_refuted",
    "C70_copy_keeps_flag_refuted"
   ],
   "note": "refuted, with the exact effect"
  },
  {
   "property": "C71",
   "status": "proved",
   "theorems": [
    "C71_single_place",
    "C71_every_row_once",
    "C71_missing_column"
   ],
   "note": "for every table pandas can return; also the KeyError for missing columns"
  },
  {
   "property": "C72",
   "status": "proved",
   "theorems": [
    "C72_mean_between",
    "C72_angle_refuted"
   ],
   "note": "the claim is refuted: 359 and 1 average to 180; what holds is that the mean lies between the extreme values"
  },
  {
   "property": "C73",
   "status": "proved",
   "theorems": [
    "C73_areas",
    "C73_areas_unique"
   ],
   "note": "the areas are determined uniquely by the tolerance rule"
  },
  {
   "property": "C74",
   "status": "proved",
   "theorems": [
    "C74_time_series",
    "C74_map_series_fails",
    "C74_later_scans_lost",
    "C74_every_step_refuted"
   ],
   "note": "true for fixed positions in every time step; otherwise refuted: KeyError with three or more areas in a step, later scans silently lost when positions scatter within the tolerance"
  },
  {
   "property": "C75",
   "status": "proved",
   "theorems": [
    "C75_horiba",
    "C75_encoding",
    "C75_no_data",
    "C75_no_column",
    "C75_no_angle",
    "C75_bad_angle",
    "C75_swallowed_refuted"
   ],
   "note": "for distinct section labels; the model of pandas.read_csv is described in M_instr.v; without the codec ANSI (anywhere but on Windows) every such file raises"
  },
  {
   "property": "C76",
   "status": "proved",
   "theorems": [
    "C76_static",
    "C76_handle",
    "C76_handle_refuted",
    "C76_no_records",
    "C76_no_stride",
    "C76_other_kind"
   ],
   "note": "refuted for file handles, where the first record is lost"
  },
  {
   "property": "C77",
   "status": "proved",
   "theorems": [
    "C77_dispatch",
    "C77_distinct",
    "C77_apart",
    "C77_last_wins",
    "C77_own_entry_refuted",
    "C77_take_none",
    "C77_no_stride"
   ],
   "note": "the table is what pandas.read_csv returns; the claim that each step gets its own entry is refuted for steps closer than 0.1 s"
  },
  {
   "property": "C78",
   "status": "proved",
   "theorems": [
    "C78_psi",
    "C78_delta",
    "C78_delta_range",
    "C78_psi_range",
    "C78_psi_nan",
    "C78_delta_nan"
   ],
   "note": "exact arithmetic; the conversion of N, C, S to float32 is not modelled"
  },
  {
   "property": "C79",
   "status": "proved",
   "theorems": [
    "C79_static",
    "C79_dynamic",
    "C79_repeated_times",
    "C79_too_short",
    "C79_other_file"
   ],
   "note": "T datasets if the times are distinct; otherwise the last line with a time wins"
  },
  {
   "property": "C80",
   "status": "proved",
   "theorems": [
    "C80_custom_round",
    "C80_any_base_refuted"
   ],
   "note": "for every base that is a multiple of 0.01; refuted for base 1/3"
  },
  {
   "property": "C81",
   "status": "proved",
   "theorems": [
    "C81_plot",
    "C81_drawn",
    "C81_plot_pure_refuted"
   ],
   "note": "refuted; the exact effect is proved"
  },
  {
   "property": "C82",
   "status": "proved",
   "theorems": [
    "C82_table_after",
    "C82_table_unchanged_refuted"
   ],
   "note": "The claim of purity is refuted; the exact effect is proved."
  },
  {
   "property": "C83",
   "status": "proved",
   "theorems": [
    "C83_nan_kept",
    "C83_nan_hidden_refuted"
   ],
   "note": "refuted for bruggeman"
  },
  {
   "property": "C84",
   "status": "proved",
   "theorems": [
    "C84_only_parameters"
   ],
   "note": ""
  },
  {
   "property": "C85",
   "status": "proved",
   "theorems": [
    "C85_logp"
   ],
   "note": ""
  },
  {
   "property": "C86",
   "status": "proved",
   "theorems": [
    "C86_loaded_dataset"
   ],
   "note": ""
  },
  {
   "property": "C87",
   "status": "proved",
   "theorems": [
    "C87_tauc_lorentz",
    "C87_unique",
    "C87_sharp"
   ],
   "note": "the principal value is a limit of Riemann integrals; the integrals exist (is_RInt), nothing is totalised"
  },
  {
   "property": "C88",
   "status": "proved",
   "theorems": [
    "C88_lorentz"
   ],
   "note": ""
  },
  {
   "property": "C89",
   "status": "proved",
   "theorems": [
    "C89_shows",
    "C89_succeeds",
    "C89_ends",
    "C89_errors",
    "C89_harmless"
   ],
   "note": "a plot is the list of things handed to matplotlib; columns with nan wavelengths or angles are outside the model"
  },
  {
   "property": "C90",
   "status": "proved",
   "theorems": [
    "C90_shows",
    "C90_refuses",
    "C90_every_angle_refuted"
   ],
   "note": "the claim that every angle gets a curve is refuted; chi-squared is modelled before rounding for display"
  },
  {
   "property": "C91",
   "status": "proved",
   "theorems": [
    "C91_restores",
    "C91_pvals",
    "C91_restores_after_error_refuted"
   ],
   "note": "constraints must be computed from unconstrained parameters (resolved), as refnx constraint trees are when evaluated; restoration fails after an exception"
  },
  {
   "property": "C92",
   "status": "proved",
   "theorems": [
    "C92_sets",
    "C92_wrong_length"
   ],
   "note": ""
  },
  {
   "property": "C93",
   "status": "proved",
   "theorems": [
    "C93_coh_tmm",
    "C93_thicknesses",
    "C93_infinite",
    "C93_Delta_Psi_TMM"
   ],
   "note": ""
  },
  {
   "property": "C94",
   "status": "proved",
   "theorems": [
    "C94_names",
    "C94_distinct"
   ],
   "note": "how Python prints a float is a function argument"
  },
  {
   "property": "C95",
   "status": "proved",
   "theorems": [
    "C95_model"
   ],
   "note": "externals (contraction, custom interfaces) excluded by hypothesis; uses C22 and the slab table theorems"
  },
  {
   "property": "C96",
   "status": "proved",
   "theorems": [
    "C96_circular_distance",
    "C96_nan"
   ],
   "note": "IEEE binary64 arithmetic of Flocq"
  },
  {
   "property": "C97",
   "status": "proved",
   "theorems": [
    "C97_fold",
    "C97_nan"
   ],
   "note": "IEEE binary64 arithmetic of Flocq"
  },
  {
   "property": "C98",
   "status": "proved",
   "theorems": [
    "C98_custom_round"
   ],
   "note": "default base 0.25; IEEE binary64 arithmetic of Flocq"
  },
  {
   "property": "C99",
   "status": "proved",
   "theorems": [
    "C99_nm_eV",
    "C99_decreasing",
    "C99_special",
    "C99_involution_refuted"
   ],
   "note": "IEEE binary64 arithmetic of Flocq"
  },
  {
   "property": "C100",
   "status": "proved",
   "theorems": [
    "C100_parameters",
    "C100_sufficient"
   ],
   "note": "sessions that do not replace attributes of components (see C102)"
  },
  {
   "property": "C101",
   "status": "proved",
   "theorems": [
    "C101_evaluations",
    "C101_failures",
    "C101_wrong_structure"
   ],
   "note": ""
  },
  {
   "property": "C102",
   "status": "proved",
   "theorems": [
    "C102_current_refuted",
    "C102_lists_fixed"
   ],
   "note": "the claim is false of the code: refuted with a witness"
  },
  {
   "property": "C103",
   "status": "proved",
   "theorems": [
    "C103_tables"
   ],
   "note": ""
  },
  {
   "property": "C104",
   "status": "proved",
   "theorems": [
    "C104_own_columns",
    "C104_fixed",
    "C104_copies_refuted"
   ],
   "note": "false for folding copies: refuted with a witness; proved for all other histories"
  },
  {
   "property": "C105",
   "status": "proved",
   "theorems": [
    "C105_keywords_ignored",
    "C105_mask_argument_refuted"
   ],
   "note": "the claim is false of the code: refuted with a witness"
  },
  {
   "property": "C106",
   "status": "proved",
   "theorems": [
    "C106_atomic_refuted",
    "C106_others_atomic"
   ],
   "note": "false for data assignment: refuted with a witness; proved for the other operations"
  },
  {
   "property": "C107",
   "status": "proved",
   "theorems": [
    "C107_slabs",
    "C107_model_refuted",
    "C107_objective"
   ],
   "note": "false for ReflectModelSE: refuted for every model"
  },
  {
   "property": "C108",
   "status": "proved",
   "theorems": [
    "C108_str",
    "C108_datapoints",
    "C108_fitted_points_refuted",
    "C108_tells"
   ],
   "note": "the number of datapoints counts masked points: refuted with a witness"
  },
  {
   "property": "C109",
   "status": "proved",
   "theorems": [
    "C109_inverse",
    "C109_exact_derivatives"
   ],
   "note": "exact arithmetic; the decomposition enters as a contract"
  },
  {
   "property": "C110",
   "status": "proved",
   "theorems": [
    "C110_positive"
   ],
   "note": ""
  },
  {
   "property": "C111",
   "status": "proved",
   "theorems": [
    "C111_no_effect",
    "C111_only_then",
    "C111_lnsigma"
   ],
   "note": ""
  },
  {
   "property": "C112",
   "status": "proved",
   "theorems": [
    "C112_reported_refuted"
   ],
   "note": "the claim is false of the code: refuted with a witness"
  },
  {
   "property": "C113",
   "status": "proved",
   "theorems": [
    "C113_perfect_fit_refuted"
   ],
   "note": "the claim is false of the code: refuted with a witness"
  },
  {
   "property": "C114",
   "status": "proved",
   "theorems": [
    "C114_negative",
    "C114_variances_refuted"
   ],
   "note": "the claim is false of the code: refuted with a witness, and in every case with fewer residuals than parameters"
  },
  {
   "property": "C115",
   "status": "proved",
   "theorems": [
    "C115_cauchy",
    "C115_sellmeier",
    "C115_lorentz",
    "C115_gauss",
    "C115_tauc_lorentz"
   ],
   "note": "the real part of Gauss depends on scipy.hilbert, an argument of the model: only its imaginary part is described here"
  },
  {
   "property": "C116",
   "status": "proved",
   "theorems": [
    "C116_order_ambiguity"
   ],
   "note": ""
  },
  {
   "property": "C117",
   "status": "proved",
   "theorems": [
    "C117_substrate",
    "C117_identified"
   ],
   "note": ""
  },
  {
   "property": "C118",
   "status": "proved",
   "theorems": [
    "C118_brewster",
    "C118_total_reflection"
   ],
   "note": ""
  },
  {
   "property": "C119",
   "status": "proved",
   "theorems": [
    "C119_psi",
    "C119_residual",
    "C119_folded",
    "C119_delta_refuted"
   ],
   "note": "continuity of the unfolded delta is false: refuted with a witness (a quarter-wave film at grazing incidence)"
  },
  {
   "property": "C120",
   "status": "proved",
   "theorems": [
    "C120_value",
    "C120_value_read",
    "C120_settings_of_parameter",
    "C120_append",
    "C120_append_scatterer",
    "C120_join",
    "C120_components",
    "C120_settings",
    "C120_model",
    "C120_new",
    "C120_constructor",
    "C120_attributes",
    "C120_refused",
    "C120_model_anew",
    "C120_join_anew"
   ],
   "note": ""
  },
  {
   "property": "C121",
   "status": "proved",
   "theorems": [
    "C121_assign",
    "C121_some_prefix",
    "C121_mask",
    "C121_copy",
    "C121_arrays_shared"
   ],
   "note": ""
  },
  {
   "property": "C122",
   "status": "proved",
   "theorems": [
    "C122_names",
    "C122_names_differ",
    "C122_slab",
    "C122_mixed",
    "C122_objective",
    "C122_model",
    "C122_scatterer",
    "C122_others_refuted",
    "C122_mask_refuted"
   ],
   "note": "for datasets, objectives and models the claim is false of the code: refuted for all of them"
  },
  {
   "property": "C123",
   "status": "proved",
   "theorems": [
    "C123_m2000",
    "C123_filmsense_wavelength",
    "C123_filmsense_point",
    "C123_filmsense_step",
    "C123_horiba",
    "C123_save",
    "C123_gauss_empty"
   ],
   "note": "M2000 files given by name"
  },
  {
   "property": "C124",
   "status": "proved",
   "theorems": [
    "C124_masked",
    "C124_order",
    "C124_chisqr",
    "C124_logl",
    "C124_logpost",
    "C124_fewer"
   ],
   "note": ""
  },
  {
   "property": "C125",
   "status": "proved",
   "theorems": [
    "C125_m2000",
    "C125_m2000_errors",
    "C125_filmsense",
    "C125_filmsense_series",
    "C125_decoded",
    "C125_encoded",
    "C125_horiba"
   ],
   "note": "M2000: static files given by name; the float32 rounding of FilmSense is not modelled; the number of Horiba rows is that of C75"
  },
  {
   "property": "C126",
   "status": "proved",
   "theorems": [
    "C126_finite",
    "C126_points",
    "C126_returns",
    "C126_nan_refuted",
    "C126_angle",
    "C126_errors",
    "C126_residuals",
    "C126_residual_fixed",
    "C126_mask_none",
    "C126_mask_none_one"
   ],
   "note": "C126_nan_refuted: a nan wavelength does not give nan values; infinite wavelengths are not covered"
  },
  {
   "property": "C127",
   "status": "proved",
   "theorems": [
    "C127_header",
    "C127_load",
    "C127_load_handle",
    "C127_series",
    "C127_series_determined",
    "C127_series_members",
    "C127_errors",
    "C127_every_area_refuted"
   ],
   "note": "files with a single point are outside the model of load"
  },
  {
   "property": "C128",
   "status": "proved",
   "theorems": [
    "C128_sign",
    "C128_error",
    "C128_finite",
    "C128_two_orders",
    "C128_zero",
    "C128_monotone",
    "C128_psi",
    "C128_exact_exists",
    "C128_residuals",
    "C128_chisqr",
    "C128_nan",
    "C128_perfect",
    "C128_zero_means",
    "C128_zero_refuted"
   ],
   "note": "model and data are doubles; how the model computes its values in double precision is not modelled"
  },
  {
   "property": "C129",
   "status": "proved",
   "theorems": [
    "C129_nearest",
    "C129_psi",
    "C129_psi_refuted",
    "C129_delta",
    "C129_delta_refuted",
    "C129_file"
   ],
   "note": "the conversion to float32 is modelled; that arccos, angle and the division are calculated in float32 is not"
  },
  {
   "property": "C130",
   "status": "proved",
   "theorems": [
    "C130_no_trace",
    "C130_convention",
    "C130_convention_refuted",
    "C130_theory",
    "C130_data",
    "C130_objective"
   ],
   "note": "covar, plots, transform and data that are not a DataSE are not among the statements"
  },
  {
   "property": "C131",
   "status": "proved",
   "theorems": [
    "C131_psi",
    "C131_delta",
    "C131_folded",
    "C131_residual",
    "C131_central",
    "C131_perfect_fit",
    "C131_critical_refuted"
   ],
   "note": "slopes in exact arithmetic; the values of the slopes and the error of difference quotients are not bounded"
  },
  {
   "property": "C132",
   "status": "proved",
   "theorems": [
    "C132_jacobian",
    "C132_central"
   ],
   "note": "exact arithmetic; the speed of convergence is not bounded"
  },
  {
   "property": "C133",
   "status": "proved",
   "theorems": [
    "C133_dispersion",
    "C133_mixing",
    "C133_zero_refuted",
    "C133_solvation_refuted"
   ],
   "note": "scipy.fftpack.hilbert is assumed to be a linear filter"
  },
  {
   "property": "C134",
   "status": "proved",
   "theorems": [
    "C134_structure",
    "C134_fit"
   ],
   "note": "structures with custom components or interfaces of their own are not covered"
  },
  {
   "property": "C135",
   "status": "proved",
   "theorems": [
    "C135_covariance"
   ],
   "note": "exact arithmetic; how small the steps must be is not bounded"
  },
  {
   "property": "C136",
   "status": "proved",
   "theorems": [
    "C136_cauchy"
   ],
   "note": "IEEE binary64 arithmetic of Flocq; the power functions of the platform enter through an accuracy requirement"
  },
  {
   "property": "C137",
   "status": "proved",
   "theorems": [
    "C137_sellmeier",
    "C137_resonance_refuted"
   ],
   "note": "as C136; the error bound without the distance from the resonance is refuted"
  },
  {
   "property": "C138",
   "status": "proved",
   "theorems": [
    "C138_finite",
    "C138_points",
    "C138_returns",
    "C138_without",
    "C138_shape",
    "C138_posterior",
    "C138_mask_none_one",
    "C138_mask_none_refuted"
   ],
   "note": "C138_mask_none_refuted: mask = None does not give the likelihood of all points; infinite wavelengths are not covered"
  },
  {
   "property": "C139",
   "status": "proved",
   "theorems": [
    "C139_two",
    "C139_single",
    "C139_unique_refuted"
   ],
   "note": "exact arithmetic; C139_unique_refuted: two thicknesses within an order with the same psi and delta"
  },
  {
   "property": "C140",
   "status": "proved",
   "theorems": [
    "C140_round_trip",
    "C140_offset_refuted"
   ],
   "note": "the numbers in the file enter through parser and printer agreeing on them; C140_offset_refuted: with folding and a positive delta_offset simulated data are not recovered"
  },
  {
   "property": "C141",
   "status": "proved",
   "theorems": [
    "C141_added",
    "C141_absorbed",
    "C141_parabola",
    "C141_best",
    "C141_perfect",
    "C141_perfect_unique",
    "C141_perfect_possible",
    "C141_mean_refuted",
    "C141_lnsigma_refuted"
   ],
   "note": "C141_mean_refuted, C141_lnsigma_refuted: the mean error is not the best offset if points lie on both sides of 0 degrees; with lnsigma the likelihood depends on the origin of delta"
  },
  {
   "property": "C142",
   "status": "proved",
   "theorems": [
    "C142_bulk",
    "C142_hidden",
    "C142_hidden_any",
    "C142_psi"
   ],
   "note": "C30 bounds the cut-off against the exact solution; here the layers beneath are arbitrary"
  },
  {
   "property": "C143",
   "status": "proved",
   "theorems": [
    "C143_entries",
    "C143_constant",
    "C143_zeros",
    "C143_zeros_2d",
    "C143_zero_entry",
    "C143_grid",
    "C143_rows_added",
    "C143_grid_oscillators_refuted",
    "C143_one_row",
    "C143_mismatch"
   ],
   "note": "false for Lorentz and Tauc-Lorentz at two-dimensional arrays; the theorems do not fix the value of a Gauss scatterer at wavelength 0 (seeded error YQ43 is not detected)"
  },
  {
   "property": "C144",
   "status": "proved",
   "theorems": [
    "C144_product",
    "C144_film",
    "C144_incommensurable",
    "C144_ambiguous"
   ],
   "note": "exact arithmetic; rests on C116 and C139"
  },
  {
   "property": "C145",
   "status": "proved",
   "theorems": [
    "C145_arrays",
    "C145_arrays_new",
    "C145_load",
    "C145_new",
    "C145_reflect_refuted",
    "C145_copy",
    "C145_wavelengths",
    "C145_mask",
    "C145_save_load",
    "C145_data_setter",
    "C145_refresh_grown",
    "C145_refresh_shrunk"
   ],
   "note": "C145_reflect_refuted: reflect_delta raises TypeError for a file with one point"
  },
  {
   "property": "C146",
   "status": "proved",
   "theorems": [
    "C146_power",
    "C146_exact",
    "C146_exactly",
    "C146_int64",
    "C146_int32",
    "C146_int32_wrong",
    "C146_int32_nan",
    "C146_uint32",
    "C146_uint64",
    "C146_integers_refuted"
   ],
   "note": "C146_integers_refuted: a 32 bit integer array of wavelengths gives a wrong index or none; the float arithmetic after the powers is exact here"
  },
  {
   "property": "C147",
   "status": "proved",
   "theorems": [
    "C147_no_trace",
    "C147_structure",
    "C147_structure_refuted",
    "C147_theory",
    "C147_covar",
    "C147_model",
    "C147_profile"
   ],
   "note": "C147_structure_refuted: plot_structure in the middle of a fit un-reverses the structure; C147_no_trace assumes unconstrained varying parameters and no samples"
  },
  {
   "property": "C148",
   "status": "proved",
   "theorems": [
    "C148_admittance",
    "C148_absentee",
    "C148_mirror",
    "C148_mirror_angles",
    "C148_many_periods",
    "C148_brewster"
   ],
   "note": "both polarisations; C148_admittance also for absorbing layers"
  },
  {
   "property": "C149",
   "status": "proved",
   "theorems": [
    "C149_arguments",
    "C149_refusals",
    "C149_verdict",
    "C149_success_refuted",
    "C149_text_refuted"
   ],
   "note": "the two refuted theorems record what the test runner does not do"
  },
  {
   "property": "C150",
   "status": "proved",
   "theorems": [
    "C150_amplitudes",
    "C150_reading",
    "C150_antireflection",
    "C150_perfect",
    "C150_not_both"
   ],
   "note": "The degenerate readings are those of the model of numpy (nan as None)."
  },
  {
   "property": "C151",
   "status": "proved",
   "theorems": [
    "C151_natural",
    "C151_take_every",
    "C151_static",
    "C151_no_records",
    "C151_dynamic",
    "C151_steps",
    "C151_same_points_refuted"
   ],
   "note": "C151_same_points_refuted: dropdatapoints = -2 keeps other points than 2."
  },
  {
   "property": "C152",
   "status": "proved",
   "theorems": [
    "C152_transparent",
    "C152_ends",
    "C152_root_of_square",
    "C152_maxwell_ends_refuted",
    "C152_maxwell",
    "C152_bruggeman_ends_refuted",
    "C152_dielectric"
   ],
   "note": "The complex square root off the real axis is the C library's and left open. Rounding errors of Maxwell-Garnett for absorbing media and of Bruggeman are not bounded."
  },
  {
   "property": "C153",
   "status": "proved",
   "theorems": [
    "C153_evaluation",
    "C153_picture",
    "C153_scatterer",
    "C153_component",
    "C153_model",
    "C153_structure"
   ],
   "note": "In exact arithmetic on the numbers of the Parameters."
  },
  {
   "property": "C154",
   "status": "proved",
   "theorems": [
    "C154_column_names_only",
    "C154_no_rows_no_points_refuted"
   ],
   "note": "Rows that do not fit the column names are outside the model of read_csv. The witness is a line outside any section."
  },
  {
   "property": "C155",
   "status": "proved",
   "theorems": [
    "C155_wiener",
    "C155_hashin_shtrikman",
    "C155_symmetric_refuted",
    "C155_increasing",
    "C155_decreasing",
    "C155_determined",
    "C155_shape"
   ],
   "note": "Exact arithmetic; transparent media. That there is a result is C37."
  }
 ]
}