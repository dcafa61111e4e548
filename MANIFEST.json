{
 "claims": [
  {
   "property": "C01",
   "status": "proved",
   "theorems": [
    "C01_step",
    "C01_steps",
    "C01_frame",
    "C01_random_step",
    "C01_code",
    "C01_meta",
    "C01_nca",
    "C01_nca_frame",
    "C01_rd",
    "C01_rd_frame"
   ],
   "note": ""
  },
  {
   "property": "C02",
   "status": "proved",
   "theorems": [
    "C02_shape",
    "C02_shape_lenia",
    "C02_shape_random",
    "C02_shape_code",
    "C02_accepts",
    "C02_bad_channels",
    "C02_bad_padding",
    "C02_bad_count",
    "C02_nca",
    "C02_nca_accepts",
    "C02_nca_bad_channels",
    "C02_rd",
    "C02_rd_accepts"
   ],
   "note": ""
  },
  {
   "property": "C03",
   "status": "proved",
   "theorems": [
    "C03_identity",
    "C03_channels",
    "C03_applies"
   ],
   "note": ""
  },
  {
   "property": "C04",
   "status": "proved",
   "theorems": [
    "C04_toroidal"
   ],
   "note": ""
  },
  {
   "property": "C05",
   "status": "proved",
   "theorems": [
    "C05_cca",
    "C05_lenia",
    "C05_random",
    "C05_code",
    "C05_meta",
    "C05_nca",
    "C05_rd"
   ],
   "note": ""
  },
  {
   "property": "C06",
   "status": "proved",
   "theorems": [
    "C06_flip_v",
    "C06_flip_h",
    "C06_transpose",
    "C06_code_flip_v",
    "C06_get_kernel",
    "C06_nca",
    "C06_rd"
   ],
   "note": ""
  },
  {
   "property": "C07",
   "status": "proved",
   "theorems": [
    "C07_cca",
    "C07_lenia",
    "C07_code_refuted",
    "C07_nca",
    "C07_rd"
   ],
   "note": "fixed-step classes proved; CODE refuted by a witness, as the property states"
  },
  {
   "property": "C08",
   "status": "proved",
   "theorems": [
    "C08_rule",
    "C08_formula",
    "C08_same_update"
   ],
   "note": ""
  },
  {
   "property": "C09",
   "status": "proved",
   "theorems": [
    "C09_lenia"
   ],
   "note": ""
  },
  {
   "property": "C10",
   "status": "proved",
   "theorems": [
    "C10_fixed_iff",
    "C10_stays_dead",
    "C10_gaussian"
   ],
   "note": ""
  },
  {
   "property": "C11",
   "status": "proved",
   "theorems": [
    "C11_forward_masks",
    "C11_frame_equals_forward",
    "C11_frame_differs_refuted",
    "C11_mask"
   ],
   "note": ""
  },
  {
   "property": "C12",
   "status": "proved",
   "theorems": [
    "C12_time"
   ],
   "note": ""
  },
  {
   "property": "C13",
   "status": "proved",
   "theorems": [
    "C13_exact",
    "C13_range"
   ],
   "note": ""
  },
  {
   "property": "C14",
   "status": "proved",
   "theorems": [
    "C14_change"
   ],
   "note": ""
  },
  {
   "property": "C15",
   "status": "proved",
   "theorems": [
    "C15_double_short",
    "C15_gaussian",
    "C15_gaussian_peak",
    "C15_gaussian_decreasing",
    "C15_mixture",
    "C15_double",
    "C15_cosx2",
    "C15_cosx2_peak",
    "C15_intervals",
    "C15_smoothlife",
    "C15_polynomial"
   ],
   "note": ""
  },
  {
   "property": "C16",
   "status": "proved",
   "theorems": [
    "C16_negative",
    "C16_tight",
    "C16_only_shrinks"
   ],
   "note": ""
  },
  {
   "property": "C17",
   "status": "proved",
   "theorems": [
    "C17_triples",
    "C17_pairs",
    "C17_odd",
    "C17_empty",
    "C17_value",
    "C17_applies"
   ],
   "note": ""
  },
  {
   "property": "C18",
   "status": "proved",
   "theorems": [
    "C18_indicator",
    "C18_growth"
   ],
   "note": ""
  },
  {
   "property": "C19",
   "status": "proved",
   "theorems": [
    "C19_gaussian",
    "C19_dogaussian",
    "C19_cosx2",
    "C19_smoothlife",
    "C19_mixture",
    "C19_fitted",
    "C19_sum",
    "C19_get_kernel",
    "C19_moore",
    "C19_inner",
    "C19_builders",
    "C19_edge",
    "C19_edge_exists",
    "C19_edge_antisymmetric"
   ],
   "note": ""
  },
  {
   "property": "C20",
   "status": "proved",
   "theorems": [
    "C20_edge_profile",
    "C20_shape",
    "C20_symmetric",
    "C20_radius_zero",
    "C20_needs_radius",
    "C20_ranks"
   ],
   "note": ""
  },
  {
   "property": "C21",
   "status": "proved",
   "theorems": [
    "C21_log_sum",
    "C21_log_exists",
    "C21_log_profile",
    "C21_fd_sum",
    "C21_constant",
    "C21_conserves"
   ],
   "note": ""
  },
  {
   "property": "C22",
   "status": "proved",
   "theorems": [
    "C22_unit",
    "C22_get_kernel",
    "C22_mixed_channels_refuted"
   ],
   "note": "mixed channel counts: bound plus a witness above 1, as the property states"
  },
  {
   "property": "C23",
   "status": "proved",
   "theorems": [
    "C23_unknown",
    "C23_unnamed",
    "C23_builders"
   ],
   "note": ""
  },
  {
   "property": "C24",
   "status": "proved",
   "theorems": [
    "C24_round",
    "C24_frame",
    "C24_short",
    "C24_tail",
    "C24_accepts",
    "C24_raises",
    "C24_inj"
   ],
   "note": ""
  },
  {
   "property": "C25",
   "status": "proved",
   "theorems": [
    "C25_self",
    "C25_synced",
    "C25_arguments",
    "C25_moore_refuted",
    "C25_smoothlife_refuted",
    "C25_cosx2_refuted",
    "C25_dogaussian_refuted",
    "C25_swapped_refuted"
   ],
   "note": "proved for the stated kernels; a refuting witness for each of the others, as the property states"
  },
  {
   "property": "C26",
   "status": "proved",
   "theorems": [
    "C26_lenia",
    "C26_lenia_accepts",
    "C26_lenia_self",
    "C26_agent",
    "C26_agent_stable",
    "C26_agent_acts",
    "C26_agent_new",
    "C26_cppn",
    "C26_cppn_accepts",
    "C26_cppn_self",
    "C26_cppn_length",
    "C26_plus",
    "C26_plus_accepts",
    "C26_plus_new",
    "C26_rd_setters",
    "C26_nca",
    "C26_nca_length",
    "C26_nca_short",
    "C26_nca_self",
    "C26_nca_scalar",
    "C26_rd"
   ],
   "note": ""
  },
  {
   "property": "C27",
   "status": "proved",
   "theorems": [
    "C27_round",
    "C27_loaded",
    "C27_kept",
    "C27_recovers",
    "C27_intervals",
    "C27_life_dies",
    "C27_amplitudes",
    "C27_channels",
    "C27_intervals_refuted",
    "C27_amplitudes_refuted",
    "C27_identity_refuted",
    "C27_padding",
    "C27_padding_errors"
   ],
   "note": "proved for the stated class; a refuting witness for each of the others, as the property states"
  },
  {
   "property": "C28",
   "status": "proved",
   "theorems": [
    "C28_stale",
    "C28_radius",
    "C28_refuted"
   ],
   "note": "general statement plus a witness whose reloaded rule differs"
  },
  {
   "property": "C29",
   "status": "proved",
   "theorems": [
    "C29_first",
    "C29_idempotent",
    "C29_reload"
   ],
   "note": ""
  },
  {
   "property": "C30",
   "status": "proved",
   "theorems": [
    "C30_references",
    "C30_second",
    "C30_radius",
    "C30_refuted"
   ],
   "note": "general statement plus a witness whose second load differs"
  },
  {
   "property": "C31",
   "status": "proved",
   "theorems": [
    "C31_save",
    "C31_cycle",
    "C31_plain"
   ],
   "note": ""
  },
  {
   "property": "C32",
   "status": "proved",
   "theorems": [
    "C32_paths",
    "C32_join",
    "C32_saved",
    "C32_name"
   ],
   "note": ""
  },
  {
   "property": "C33",
   "status": "proved",
   "theorems": [
    "C33_cca",
    "C33_cca_none",
    "C33_cca_write",
    "C33_nca_config",
    "C33_nca_radius_none",
    "C33_nca_radius",
    "C33_rd",
    "C33_rd_none"
   ],
   "note": ""
  },
  {
   "property": "C34",
   "status": "proved",
   "theorems": [
    "C34_loads",
    "C34_run",
    "C34_forever",
    "C34_linear",
    "C34_intervals"
   ],
   "note": ""
  },
  {
   "property": "C35",
   "status": "proved",
   "theorems": [
    "C35_board",
    "C35_run",
    "C35_rough"
   ],
   "note": ""
  },
  {
   "property": "C36",
   "status": "proved",
   "theorems": [
    "C36_equilibrium",
    "C36_values",
    "C36_outside",
    "C36_default"
   ],
   "note": ""
  },
  {
   "property": "C37",
   "status": "proved",
   "theorems": [
    "C37_totals",
    "C37_terms"
   ],
   "note": ""
  },
  {
   "property": "C38",
   "status": "proved",
   "theorems": [
    "C38_round",
    "C38_radius_lost_refuted",
    "C38_load"
   ],
   "note": ""
  },
  {
   "property": "C39",
   "status": "proved",
   "theorems": [
    "C39_terminates",
    "C39_chosen_step",
    "C39_bounds",
    "C39_unbound",
    "C39_runs"
   ],
   "note": ""
  },
  {
   "property": "C40",
   "status": "proved",
   "theorems": [
    "C40_code",
    "C40_code_calls",
    "C40_random",
    "C40_random_bounds",
    "C40_random_step",
    "C40_get_dt_fails",
    "C40_code_get_dt_fails"
   ],
   "note": ""
  },
  {
   "property": "C41",
   "status": "proved",
   "theorems": [
    "C41_step",
    "C41_after_reset",
    "C41_momentum",
    "C41_first"
   ],
   "note": ""
  },
  {
   "property": "C42",
   "status": "proved",
   "theorems": [
    "C42_squared_activation",
    "C42_constructed",
    "C42_constructible",
    "C42_range",
    "C42_change",
    "C42_formula",
    "C42_eval_deterministic",
    "C42_training_refuted"
   ],
   "note": ""
  },
  {
   "property": "C43",
   "status": "proved",
   "theorems": [
    "C43_terminates",
    "C43_counter",
    "C43_format",
    "C43_writes",
    "C43_keeps",
    "C43_history_total"
   ],
   "note": ""
  },
  {
   "property": "C44",
   "status": "proved",
   "theorems": [
    "C44_round_trip",
    "C44_round_trip_later",
    "C44_truncated",
    "C44_config",
    "C44_restores",
    "C44_errors",
    "C44_interrupted"
   ],
   "note": ""
  },
  {
   "property": "C45",
   "status": "proved",
   "theorems": [
    "C45_listed",
    "C45_sorted",
    "C45_frame",
    "C45_index",
    "C45_stem"
   ],
   "note": ""
  },
  {
   "property": "C46",
   "status": "proved",
   "theorems": [
    "C46_order",
    "C46_sorted",
    "C46_names",
    "C46_sort",
    "C46_beyond_refuted"
   ],
   "note": ""
  },
  {
   "property": "C47",
   "status": "proved",
   "theorems": [
    "C47_ceiling",
    "C47_double_points",
    "C47_double_even",
    "C47_bite",
    "C47_aperture",
    "C47_bite_errors",
    "C47_aperture_errors",
    "C47_double"
   ],
   "note": ""
  },
  {
   "property": "C48",
   "status": "proved",
   "theorems": [
    "C48_partition",
    "C48_results",
    "C48_one"
   ],
   "note": ""
  },
  {
   "property": "C49",
   "status": "proved",
   "theorems": [
    "C49_serial",
    "C49_no_deadlock",
    "C49_terminates",
    "C49_final",
    "C49_complete",
    "C49_same",
    "C49_evolution"
   ],
   "note": ""
  },
  {
   "property": "C50",
   "status": "proved",
   "theorems": [
    "C50_best",
    "C50_too_many",
    "C50_keep",
    "C50_tourney",
    "C50_lottery_prob",
    "C50_lottery",
    "C50_modes"
   ],
   "note": ""
  },
  {
   "property": "C51",
   "status": "proved",
   "theorems": [
    "C51_best",
    "C51_population",
    "C51_small",
    "C51_refuted",
    "C51_monotone"
   ],
   "note": ""
  },
  {
   "property": "C52",
   "status": "proved",
   "theorems": [
    "C52_psd",
    "C52_start",
    "C52_run",
    "C52_mean",
    "C52_shift",
    "C52_update"
   ],
   "note": ""
  },
  {
   "property": "C53",
   "status": "proved",
   "theorems": [
    "C53_last",
    "C53_middle",
    "C53_early",
    "C53_refuted",
    "C53_when",
    "C53_length"
   ],
   "note": ""
  },
  {
   "property": "C54",
   "status": "proved",
   "theorems": [
    "C54_next",
    "C54_tag",
    "C54_first",
    "C54_agents",
    "C54_refuted",
    "C54_log",
    "C54_closing",
    "C54_resume"
   ],
   "note": ""
  },
  {
   "property": "C55",
   "status": "proved",
   "theorems": [
    "C55_saved",
    "C55_blind",
    "C55_evaluated",
    "C55_logged",
    "C55_refuted"
   ],
   "note": ""
  },
  {
   "property": "C56",
   "status": "proved",
   "theorems": [
    "C56_simple",
    "C56_active",
    "C56_negative",
    "C56_accuracy",
    "C56_agreement",
    "C56_halting",
    "C56_vanishing",
    "C56_dynamism",
    "C56_both",
    "C56_training",
    "C56_needs_reset",
    "C56_calls",
    "C56_random"
   ],
   "note": ""
  },
  {
   "property": "C57",
   "status": "proved",
   "theorems": [
    "C57_simple",
    "C57_evaluation",
    "C57_training",
    "C57_cca",
    "C57_refuted"
   ],
   "note": ""
  },
  {
   "property": "C58",
   "status": "proved",
   "theorems": [
    "C58_middle",
    "C58_small",
    "C58_shape"
   ],
   "note": ""
  },
  {
   "property": "C59",
   "status": "proved",
   "theorems": [
    "C59_sum",
    "C59_telescopes",
    "C59_no_steps",
    "C59_accepts",
    "C59_span",
    "C59_centroid",
    "C59_grids"
   ],
   "note": ""
  },
  {
   "property": "C60",
   "status": "proved",
   "theorems": [
    "C60_shift",
    "C60_far",
    "C60_empty"
   ],
   "note": ""
  },
  {
   "property": "C61",
   "status": "proved",
   "theorems": [
    "C61_bounds",
    "C61_value",
    "C61_from",
    "C61_histogram",
    "C61_constant",
    "C61_succeeds",
    "C61_empty",
    "C61_two",
    "C61_affine",
    "C61_spatial",
    "C61_equivariant",
    "C61_clipped",
    "C61_clipped_empty"
   ],
   "note": ""
  },
  {
   "property": "C62",
   "status": "proved",
   "theorems": [
    "C62_total",
    "C62_column",
    "C62_refuted",
    "C62_value",
    "C62_bounds",
    "C62_succeeds",
    "C62_direction",
    "C62_multi",
    "C62_multi_succeeds"
   ],
   "note": ""
  },
  {
   "property": "C63",
   "status": "proved",
   "theorems": [
    "C63_built",
    "C63_bounds",
    "C63_value",
    "C63_channels",
    "C63_input",
    "C63_construct",
    "C63_features",
    "C63_plus"
   ],
   "note": ""
  },
  {
   "property": "C64",
   "status": "proved",
   "theorems": [
    "C64_ca",
    "C64_ca_unknown",
    "C64_env",
    "C64_unique",
    "C64_evolve",
    "C64_pattern",
    "C64_coevolve",
    "C64_universe",
    "C64_missing",
    "C64_entry",
    "C64_accepts",
    "C64_rejects",
    "C64_groups"
   ],
   "note": ""
  },
  {
   "property": "C65",
   "status": "proved",
   "theorems": [
    "C65_reachable"
   ],
   "note": ""
  },
  {
   "property": "C66",
   "status": "proved",
   "theorems": [
    "C66_orbium",
    "C66_geminium",
    "C66_smoothlife",
    "C66_saveable"
   ],
   "note": ""
  },
  {
   "property": "C67",
   "status": "proved",
   "theorems": [
    "C67_crop"
   ],
   "note": ""
  },
  {
   "property": "C68",
   "status": "proved",
   "theorems": [
    "C68_batch",
    "C68_bounds",
    "C68_default"
   ],
   "note": ""
  },
  {
   "property": "C69",
   "status": "proved",
   "theorems": [
    "C69_movie",
    "C69_no_frames"
   ],
   "note": ""
  },
  {
   "property": "C70",
   "status": "proved",
   "theorems": [
    "C70_mean",
    "C70_bounds"
   ],
   "note": ""
  },
  {
   "property": "C71",
   "status": "proved",
   "theorems": [
    "C71_even",
    "C71_odd",
    "C71_three",
    "C71_fits",
    "C71_pattern"
   ],
   "note": ""
  },
  {
   "property": "C72",
   "status": "proved",
   "theorems": [
    "C72_run",
    "C72_measures",
    "C72_succeeds"
   ],
   "note": ""
  },
  {
   "property": "C73",
   "status": "proved",
   "theorems": [
    "C73_bound",
    "C73_symmetric",
    "C73_self",
    "C73_constant",
    "C73_errors",
    "C73_table",
    "C73_trace",
    "C73_one_channel",
    "C73_misfit",
    "C73_stats"
   ],
   "note": ""
  },
  {
   "property": "C74",
   "status": "proved",
   "theorems": [
    "C74_init",
    "C74_init_weights",
    "C74_passes",
    "C74_rises",
    "C74_unused_layers",
    "C74_even_repeats",
    "C74_refusals"
   ],
   "note": ""
  },
  {
   "property": "C75",
   "status": "proved",
   "theorems": [
    "C75_fit_fails",
    "C75_fit_files",
    "C75_fit_outcome",
    "C75_no_validation",
    "C75_zero_interval",
    "C75_no_layers",
    "C75_no_epochs",
    "C75_epoch_runs",
    "C75_smooth"
   ],
   "note": ""
  },
  {
   "property": "C76",
   "status": "proved",
   "theorems": [
    "C76_evaluate",
    "C76_evaluate_zero",
    "C76_scale"
   ],
   "note": ""
  },
  {
   "property": "C77",
   "status": "proved",
   "theorems": [
    "C77_split",
    "C77_batches",
    "C77_test_file",
    "C77_names_collide"
   ],
   "note": ""
  },
  {
   "property": "C78",
   "status": "proved",
   "theorems": [
    "C78_widths",
    "C78_iterations"
   ],
   "note": ""
  },
  {
   "property": "C79",
   "status": "proved",
   "theorems": [
    "C79_saved",
    "C79_error",
    "C79_kernels_unused"
   ],
   "note": ""
  },
  {
   "property": "C80",
   "status": "proved",
   "theorems": [
    "C80_placeholder",
    "C80_overwritten",
    "C80_first_name_kept",
    "C80_verdicts",
    "C80_single"
   ],
   "note": ""
  },
  {
   "property": "C81",
   "status": "proved",
   "theorems": [
    "C81_gaussian",
    "C81_dogaussian",
    "C81_polynomial",
    "C81_cosx2",
    "C81_intervals",
    "C81_smoothlife",
    "C81_mixture_default",
    "C81_errors",
    "C81_interval_errors",
    "C81_flat_bounds",
    "C81_double",
    "C81_double_default",
    "C81_double_errors"
   ],
   "note": ""
  },
  {
   "property": "C82",
   "status": "proved",
   "theorems": [
    "C82_arguments",
    "C82_parameters",
    "C82_functions",
    "C82_polynomials"
   ],
   "note": ""
  },
  {
   "property": "C83",
   "status": "proved",
   "theorems": [
    "C83_code",
    "C83_code_first",
    "C83_random",
    "C83_start"
   ],
   "note": ""
  },
  {
   "property": "C84",
   "status": "proved",
   "theorems": [
    "C84_round_trip",
    "C84_alike",
    "C84_make_twice",
    "C84_save_restore",
    "C84_new",
    "C84_set_params",
    "C84_set_dt",
    "C84_load",
    "C84_kernel_layer",
    "C84_kernel_name",
    "C84_kernel_named",
    "C84_named_lossy",
    "C84_identity_key",
    "C84_load_fields",
    "C84_load_keys"
   ],
   "note": ""
  },
  {
   "property": "C85",
   "status": "proved",
   "theorems": [
    "C85_settings",
    "C85_new",
    "C85_from_file",
    "C85_missing",
    "C85_working",
    "C85_restore_missing",
    "C85_restore",
    "C85_plain",
    "C85_self"
   ],
   "note": ""
  },
  {
   "property": "C86",
   "status": "proved",
   "theorems": [
    "C86_expand",
    "C86_expand_ok",
    "C86_cat_targets",
    "C86_position_grids",
    "C86_population",
    "C86_closing",
    "C86_library"
   ],
   "note": ""
  },
  {
   "property": "C87",
   "status": "proved",
   "theorems": [
    "C87_place",
    "C87_start",
    "C87_next",
    "C87_prev",
    "C87_prev_same",
    "C87_this",
    "C87_texts",
    "C87_inverse",
    "C87_history",
    "C87_displayed",
    "C87_round",
    "C87_canvas",
    "C87_endless",
    "C87_stored",
    "C87_lost",
    "C87_no_return"
   ],
   "note": "the automaton is an argument: the module it is imported from is not part of this commit"
  },
  {
   "property": "C88",
   "status": "proved",
   "theorems": [
    "C88_timer",
    "C88_start",
    "C88_buttons",
    "C88_speeds",
    "C88_counter",
    "C88_update",
    "C88_texts_stay"
   ],
   "note": "the automaton is an argument: the module it is imported from is not part of this commit"
  },
  {
   "property": "C89",
   "status": "proved",
   "theorems": [
    "C89_frozen_by",
    "C89_stays_frozen",
    "C89_frozen_after",
    "C89_no_way_back",
    "C89_new",
    "C89_stays_trainable",
    "C89_kernels",
    "C89_registered",
    "C89_unregistered_refuted",
    "C89_added_refuted",
    "C89_evaluation",
    "C89_neural",
    "C89_neural_use"
   ],
   "note": ""
  },
  {
   "property": "C90",
   "status": "proved",
   "theorems": [
    "C90_init",
    "C90_bad_dropout",
    "C90_names",
    "C90_forward",
    "C90_refused",
    "C90_probability",
    "C90_samples",
    "C90_step",
    "C90_bad_mode",
    "C90_small",
    "C90_cca"
   ],
   "note": ""
  },
  {
   "property": "C91",
   "status": "proved",
   "theorems": [
    "C91_config",
    "C91_same_refuted",
    "C91_none",
    "C91_log",
    "C91_channels",
    "C91_action",
    "C91_no_kernel",
    "C91_glider_grids"
   ],
   "note": ""
  },
  {
   "property": "C92",
   "status": "proved",
   "theorems": [
    "C92_steps_agree",
    "C92_kernel",
    "C92_kernel_total",
    "C92_conv",
    "C92_stencil",
    "C92_counts",
    "C92_step",
    "C92_low",
    "C92_rules_refuted",
    "C92_lenia_step",
    "C92_life_forever",
    "C92_glider",
    "C92_lenia_forever_refuted"
   ],
   "note": "two refuting witnesses, as the property states"
  },
  {
   "property": "C93",
   "status": "proved",
   "theorems": [
    "C93_where",
    "C93_default_refuted",
    "C93_saved",
    "C93_bare",
    "C93_order_refuted",
    "C93_complete",
    "C93_names",
    "C93_each_refuted",
    "C93_reads",
    "C93_stop",
    "C93_nothing",
    "C93_reread",
    "C93_accepts",
    "C93_channels",
    "C93_odd",
    "C93_arguments",
    "C93_measured",
    "C93_number",
    "C93_truth",
    "C93_distinct"
   ],
   "note": "three refuting witnesses (default directory, order of the listing, equal names), as the property states"
  },
  {
   "property": "C94",
   "status": "proved",
   "theorems": [
    "C94_alone",
    "C94_launch",
    "C94_environment",
    "C94_threads_refuted",
    "C94_inside",
    "C94_success",
    "C94_reports",
    "C94_division",
    "C94_none",
    "C94_one",
    "C94_negative",
    "C94_sizes",
    "C94_single",
    "C94_leftover"
   ],
   "note": "one refuting witness (OpenMP threads), as the property states"
  },
  {
   "property": "C95",
   "status": "proved",
   "theorems": [
    "C95_commit",
    "C95_no_total",
    "C95_either",
    "C95_words",
    "C95_words_none",
    "C95_apostrophe_refuted",
    "C95_argument_refuted"
   ],
   "note": "two refuting witnesses (single quotes), as the property states"
  },
  {
   "property": "C96",
   "status": "proved",
   "theorems": [
    "C96_steps",
    "C96_steps_zero",
    "C96_steps_integers",
    "C96_meta_ok",
    "C96_meta_channels",
    "C96_meta_value",
    "C96_meta_range",
    "C96_meta_rest",
    "C96_target",
    "C96_target_few",
    "C96_target_more"
   ],
   "note": ""
  },
  {
   "property": "C97",
   "status": "proved",
   "theorems": [
    "C97_rounds",
    "C97_population",
    "C97_unbounded",
    "C97_never_again",
    "C97_track",
    "C97_mirror",
    "C97_board",
    "C97_notebook",
    "C97_run",
    "C97_rough"
   ],
   "note": ""
  },
  {
   "property": "C98",
   "status": "proved",
   "theorems": [
    "C98_functions",
    "C98_step_function_refuted",
    "C98_kernels",
    "C98_step",
    "C98_step_unit",
    "C98_weights",
    "C98_built",
    "C98_lenia",
    "C98_orbium",
    "C98_geminium",
    "C98_smoothlife",
    "C98_gray_scott",
    "C98_neural",
    "C98_mask_refuted",
    "C98_run",
    "C98_rough",
    "C98_grown"
   ],
   "note": "two refuting witnesses (alive mask, SmoothLife kernel function), as the property states"
  },
  {
   "property": "C99",
   "status": "proved",
   "theorems": [
    "C99_cca",
    "C99_built",
    "C99_lenia",
    "C99_orbium",
    "C99_geminium",
    "C99_smoothlife",
    "C99_gray_scott",
    "C99_neural",
    "C99_exists",
    "C99_rate",
    "C99_time_adds",
    "C99_equation",
    "C99_only",
    "C99_start",
    "C99_time",
    "C99_variable",
    "C99_two_runs",
    "C99_code",
    "C99_random",
    "C99_fixed",
    "C99_rejected",
    "C99_exponential"
   ],
   "note": "for four or more channels the alive mask is not continuous (C98), so the property is stated below that; neural automata with one fixed dropout mask"
  },
  {
   "property": "C100",
   "status": "proved",
   "theorems": [
    "C100_gaussian",
    "C100_dogaussian",
    "C100_kernel_sums",
    "C100_steps",
    "C100_params",
    "C100_equilibrium",
    "C100_aperture_centre",
    "C100_aperture_sum",
    "C100_mask_centre_refuted",
    "C100_bite_sum_refuted",
    "C100_query_refuted"
   ],
   "note": ""
  },
  {
   "property": "C101",
   "status": "proved",
   "theorems": [
    "C101_functional",
    "C101_functional_load",
    "C101_functional_restore",
    "C101_twins",
    "C101_proper",
    "C101_wf",
    "C101_kept",
    "C101_redrawn",
    "C101_cell",
    "C101_steps",
    "C101_neural",
    "C101_neural_params",
    "C101_round",
    "C101_forgets",
    "C101_loaded_one",
    "C101_monotone",
    "C101_no_gliders",
    "C101_settles"
   ],
   "note": ""
  },
  {
   "property": "C102",
   "status": "proved",
   "theorems": [
    "C102_film",
    "C102_default",
    "C102_lost",
    "C102_swept",
    "C102_elsewhere",
    "C102_left",
    "C102_stale",
    "C102_no_parent",
    "C102_none",
    "C102_zero",
    "C102_modes",
    "C102_drawn",
    "C102_colours",
    "C102_inverted",
    "C102_read",
    "C102_unseen",
    "C102_dead",
    "C102_collected",
    "C102_no_picture",
    "C102_gif_name",
    "C102_gif_same",
    "C102_overwritten"
   ],
   "note": ""
  },
  {
   "property": "C103",
   "status": "proved",
   "theorems": [
    "C103_step",
    "C103_one",
    "C103_history",
    "C103_made",
    "C103_made_stuck",
    "C103_moved",
    "C103_made_moved",
    "C103_time",
    "C103_back_refuted",
    "C103_record",
    "C103_random",
    "C103_loaded",
    "C103_overruled",
    "C103_module",
    "C103_benchmark",
    "C103_nca_step",
    "C103_nca_made",
    "C103_nca_time",
    "C103_nca_loaded",
    "C103_rxn_step",
    "C103_rxn",
    "C103_rxn_loaded",
    "C103_rxn_loaded_set",
    "C103_glider",
    "C103_glider_gpu",
    "C103_simple",
    "C103_halting_early",
    "C103_halting",
    "C103_halting_reset",
    "C103_layers",
    "C103_unregistered",
    "C103_registered",
    "C103_nca_moved",
    "C103_nca_history",
    "C103_rxn_loaded_still",
    "C103_rxn_moved"
   ],
   "note": ""
  },
  {
   "property": "C104",
   "status": "proved",
   "theorems": [
    "C104_gaussian",
    "C104_mixture",
    "C104_intervals",
    "C104_thin",
    "C104_cca",
    "C104_extinct",
    "C104_lenia",
    "C104_code",
    "C104_random",
    "C104_flow",
    "C104_orbium",
    "C104_geminium",
    "C104_smoothlife",
    "C104_laplacian",
    "C104_gray_scott_v",
    "C104_gray_scott_u",
    "C104_gray_scott_limit",
    "C104_gray_scott_new",
    "C104_rest",
    "C104_much_refuted",
    "C104_growing_refuted"
   ],
   "note": "two refuting witnesses (much v, functions that do not sink), as the property states"
  },
  {
   "property": "C105",
   "status": "proved",
   "theorems": [
    "C105_own_evaluate",
    "C105_other_evaluate",
    "C105_evaluate_keeps",
    "C105_training_mode_refuted",
    "C105_unbound_evaluate",
    "C105_unbound_fit",
    "C105_own_fit",
    "C105_own_learns",
    "C105_other_fit",
    "C105_other_outcome",
    "C105_no_layers",
    "C105_no_validation"
   ],
   "note": "one refuting witness (a model left in training mode), as the property states"
  },
  {
   "property": "C106",
   "status": "proved",
   "theorems": [
    "C106_batches",
    "C106_samplewise",
    "C106_end_evaluate",
    "C106_end_evaluate_other",
    "C106_epochs",
    "C106_no_epochs",
    "C106_few_samples",
    "C106_object",
    "C106_tag",
    "C106_missing",
    "C106_unequal",
    "C106_unequal_test"
   ],
   "note": ""
  },
  {
   "property": "C107",
   "status": "proved",
   "theorems": [
    "C107_operations",
    "C107_conversion",
    "C107_steps_exist",
    "C107_range",
    "C107_range_run",
    "C107_nan",
    "C107_nan_run",
    "C107_nan_all",
    "C107_no_nan",
    "C107_no_nan_run",
    "C107_identity_exact",
    "C107_order_refuted",
    "C107_network",
    "C107_network_run"
   ],
   "note": "one refuting witness (order of addition), as the property states; convolutions are taken as sums of products in some order, so no transform algorithms (Winograd, FFT) and no reduced-precision modes"
  },
  {
   "property": "C108",
   "status": "proved",
   "theorems": [
    "C108_clock",
    "C108_power"
   ],
   "note": ""
  },
  {
   "property": "C109",
   "status": "proved",
   "theorems": [
    "C109_eps_lost",
    "C109_eps_refuted",
    "C109_range",
    "C109_nan",
    "C109_no_nan",
    "C109_half_refuted"
   ],
   "note": "two refuting witnesses (Orbium width, float16), as the property states"
  },
  {
   "property": "C110",
   "status": "proved",
   "theorems": [
    "C110_relu",
    "C110_network",
    "C110_network_step",
    "C110_network_run",
    "C110_accepted",
    "C110_step",
    "C110_run",
    "C110_spread"
   ],
   "note": "the run bound is for fewer than four channels: the mask of living cells jumps, and C98 shows that no such bound holds with it"
  },
  {
   "property": "C111",
   "status": "proved",
   "theorems": [
    "C111_division",
    "C111_gaussian",
    "C111_rule"
   ],
   "note": "the accuracy of the library exp is a hypothesis (beta); rounding of intermediate results is proved"
  },
  {
   "property": "C112",
   "status": "proved",
   "theorems": [
    "C112_steps_exist",
    "C112_range",
    "C112_nan",
    "C112_nan_run",
    "C112_nan_all",
    "C112_no_nan",
    "C112_no_v",
    "C112_accepted",
    "C112_step",
    "C112_run",
    "C112_class"
   ],
   "note": "weights, parameters, dx and dt are taken in the format of the universe; dx**2 as dx*dx; circular padding"
  },
  {
   "property": "C113",
   "status": "proved",
   "theorems": [
    "C113_sum",
    "C113_conv",
    "C113_counts",
    "C113_background",
    "C113_heavier_refuted"
   ],
   "note": "one refuting witness (2^24 + 1 in float32), as the property states"
  },
  {
   "property": "C114",
   "status": "proved",
   "theorems": [
    "C114_refines",
    "C114_seed",
    "C114_refused",
    "C114_overflow",
    "C114_accepted",
    "C114_forgets",
    "C114_product",
    "C114_first",
    "C114_blocks",
    "C114_zero",
    "C114_start",
    "C114_arms_refuted",
    "C114_random",
    "C114_thousand"
   ],
   "note": "one refuting witness: the searches with and without arms end differently, as the property states"
  },
  {
   "property": "C115",
   "status": "proved",
   "theorems": [
    "C115_same",
    "C115_kernel_of_the_first",
    "C115_saved",
    "C115_reloaded",
    "C115_loadable",
    "C115_loaded",
    "C115_ignored",
    "C115_patterns",
    "C115_log",
    "C115_left_behind",
    "C115_writes",
    "C115_fits",
    "C115_first_writes",
    "C115_no_replicates",
    "C115_succeeds",
    "C115_describes_refuted"
   ],
   "note": "one refuting witness (kernel of a later elite and of the saved best), as the property states; CCA in functional mode, one process"
  }
 ]
}