{
 "claims": [
  {
   "property": "C01",
   "status": "proved",
   "theorems": [
    "C01_exp_sequence_grid",
    "C01_exp_sequence_complete"
   ],
   "note": "every prefix of the output, all parameters"
  },
  {
   "property": "C02",
   "status": "proved",
   "theorems": [
    "C02_generate_steps"
   ],
   "note": ""
  },
  {
   "property": "C03",
   "status": "partial",
   "theorems": [
    "C03_termination_refuted",
    "C03_generate_steps_hangs",
    "C03_termination_partial"
   ],
   "note": "false of the code for num_linear <= 0; exact domain of termination proved"
  },
  {
   "property": "C04",
   "status": "proved",
   "theorems": [
    "C04_shift"
   ],
   "note": "holds for every num_linear and every amount of fuel"
  },
  {
   "property": "C05",
   "status": "proved",
   "theorems": [
    "C05_gap_bound"
   ],
   "note": ""
  },
  {
   "property": "C06",
   "status": "proved",
   "theorems": [
    "C06_linear_prefix"
   ],
   "note": ""
  },
  {
   "property": "C07",
   "status": "proved",
   "theorems": [
    "C07_C08_C09_series"
   ],
   "note": "fields so_increasing, so_first, so_last of series_ok and the final StopIteration"
  },
  {
   "property": "C08",
   "status": "proved",
   "theorems": [
    "C07_C08_C09_series"
   ],
   "note": "fields so_index, so_complete of series_ok"
  },
  {
   "property": "C09",
   "status": "proved",
   "theorems": [
    "C07_C08_C09_series",
    "C09_generator_count",
    "C09_determined"
   ],
   "note": "keyframe_starts in StepSizeSpec.v is the claimed list of starts; C09_determined: the specification admits only one series (so_founded: a step belongs to a generator started before it)"
  },
  {
   "property": "C10",
   "status": "proved",
   "theorems": [
    "C10_even_keyframes"
   ],
   "note": ""
  },
  {
   "property": "C11",
   "status": "proved",
   "theorems": [
    "C11_single_generator"
   ],
   "note": ""
  },
  {
   "property": "C12",
   "status": "proved",
   "theorems": [
    "C12_no_stale_state"
   ],
   "note": ""
  },
  {
   "property": "C13",
   "status": "partial",
   "theorems": [
    "C13_accepts_all_refuted",
    "C13_errors_partial"
   ],
   "note": "false of the code; exact failing region given"
  },
  {
   "property": "C14",
   "status": "proved",
   "theorems": [
    "C14_iter_trajectory",
    "C14_readables"
   ],
   "note": ""
  },
  {
   "property": "C15",
   "status": "proved",
   "theorems": [
    "C15_num_steps",
    "C15_exhaustive"
   ],
   "note": ""
  },
  {
   "property": "C16",
   "status": "proved",
   "theorems": [
    "C16_linear_reader"
   ],
   "note": "index lists as seen when yielded; see C94 for kept lists"
  },
  {
   "property": "C17",
   "status": "partial",
   "theorems": [
    "C17_keyframe_max_refuted",
    "C17_keyframe_max_partial"
   ],
   "note": "false of the code by one"
  },
  {
   "property": "C18",
   "status": "proved",
   "theorems": [
    "C18_exponential_sound",
    "C18_exponential_errors"
   ],
   "note": "for linear_steps >= 1 (C03: hangs otherwise)"
  },
  {
   "property": "C19",
   "status": "proved",
   "theorems": [
    "C19_exponential_complete"
   ],
   "note": ""
  },
  {
   "property": "C20",
   "status": "partial",
   "theorems": [
    "C20_complete_refuted",
    "C19_exponential_complete"
   ],
   "note": "false of the code; C19 is the true version"
  },
  {
   "property": "C21",
   "status": "proved",
   "theorems": [
    "C21_open_trajectory",
    "C21_bad_arguments"
   ],
   "note": ""
  },
  {
   "property": "C22",
   "status": "proved",
   "theorems": [
    "C22_no_loss",
    "C22_new_table",
    "C22_flush_empties",
    "C22_append_mode"
   ],
   "note": "write faults that leave the table unchanged are included; contract of to_hdf in WriteCacheModel.v"
  },
  {
   "property": "C23",
   "status": "proved",
   "theorems": [
    "C23_bounded_loss"
   ],
   "note": ""
  },
  {
   "property": "C24",
   "status": "partial",
   "theorems": [
    "C24_len_refuted",
    "C24_len_partial"
   ],
   "note": "false of the code after explicit flush; exact count given"
  },
  {
   "property": "C25",
   "status": "partial",
   "theorems": [
    "C25_list_refuted",
    "C25_list_partial"
   ],
   "note": "false of the code; exact behaviour given"
  },
  {
   "property": "C26",
   "status": "proved",
   "theorems": [
    "C26_keyframes_independent"
   ],
   "note": "for runs that process_file completes; any implementation of the per-frame computations"
  },
  {
   "property": "C27",
   "status": "proved",
   "theorems": [
    "C27_times_from_first_frame"
   ],
   "note": "under three hypotheses on the per-frame computation (start time stored, kept, subtracted)"
  },
  {
   "property": "C28",
   "status": "proved",
   "theorems": [
    "C28_empty_frames_ignored",
    "C28_failures_do_not_abort",
    "C28_failing_frame",
    "C28_aborts",
    "C26_keyframes_independent"
   ],
   "note": ""
  },
  {
   "property": "C29",
   "status": "partial",
   "theorems": [
    "C29_custom_refuted",
    "C29_custom_partial",
    "C29_default_accumulates"
   ],
   "note": "false of the code; every reported time is that of the last frame. Without custom definitions all frames count"
  },
  {
   "property": "C30",
   "status": "proved",
   "theorems": [
    "C30_file_or_memory",
    "C30_file_result"
   ],
   "note": ""
  },
  {
   "property": "C31",
   "status": "proved",
   "theorems": [
    "C31_first_passage",
    "C31_first_crossing"
   ],
   "note": ""
  },
  {
   "property": "C32",
   "status": "proved",
   "theorems": [
    "C32_monotone_and_order"
   ],
   "note": ""
  },
  {
   "property": "C33",
   "status": "partial",
   "theorems": [
    "C33_late_relaxation_refuted",
    "C33_late_relaxation_partial"
   ],
   "note": "false of the code for t >= 2^32-1; exact report given"
  },
  {
   "property": "C34",
   "status": "proved",
   "theorems": [
    "C34_last_passage",
    "C34_escape_is_cutoff",
    "C34_unique"
   ],
   "note": ""
  },
  {
   "property": "C35",
   "status": "proved",
   "theorems": [
    "C35_documented_algorithm"
   ],
   "note": "for cutoff >= threshold; Example C35_cutoff_needed shows it is needed"
  },
  {
   "property": "C36",
   "status": "proved",
   "theorems": [
    "C36_final"
   ],
   "note": ""
  },
  {
   "property": "C37",
   "status": "proved",
   "theorems": [
    "C37_last_after_first"
   ],
   "note": "without the hypotheses on times and cutoff"
  },
  {
   "property": "C38",
   "status": "proved",
   "theorems": [
    "C38_size_mismatch",
    "C38_always_sized",
    "C38_add"
   ],
   "note": ""
  },
  {
   "property": "C39",
   "status": "proved",
   "theorems": [
    "C39_set_mol_relax",
    "C39_defaults"
   ],
   "note": "number parsing and printing are parameters"
  },
  {
   "property": "C40",
   "status": "proved",
   "theorems": [
    "C40_routing",
    "C40_reachable"
   ],
   "note": ""
  },
  {
   "property": "C41",
   "status": "proved",
   "theorems": [
    "C41_first_crossing",
    "C41_nan_samples",
    "C41_first_sample"
   ],
   "note": ""
  },
  {
   "property": "C42",
   "status": "partial",
   "theorems": [
    "C42_never_relaxed_refuted",
    "C42_never_relaxed_partial"
   ],
   "note": "false of the code; exact result given"
  },
  {
   "property": "C43",
   "status": "proved",
   "theorems": [
    "C43_first_maximum",
    "C43_maximum_exists",
    "C43_no_maximum"
   ],
   "note": "Examples show why infinite values are excluded"
  },
  {
   "property": "C44",
   "status": "proved",
   "theorems": [
    "C44_time_error",
    "C44_value_error"
   ],
   "note": ""
  },
  {
   "property": "C45",
   "status": "proved",
   "theorems": [
    "C45_slope",
    "C45_few_samples",
    "C45_least_squares"
   ],
   "note": "curve_fit by contract fits_lines, with an instance; over the reals"
  },
  {
   "property": "C46",
   "status": "proved",
   "theorems": [
    "C46_derivatives"
   ],
   "note": "over the reals"
  },
  {
   "property": "C47",
   "status": "proved",
   "theorems": [
    "C47_lengths",
    "C47_growth",
    "C47_peak",
    "C47_decay",
    "C47_line"
   ],
   "note": "RuntimeError iff lengths differ for all names but msd, msr, for which curve_fit may raise it too"
  },
  {
   "property": "C48",
   "status": "partial",
   "theorems": [
    "C48_simulation_times_refuted",
    "C48_labels_partial"
   ],
   "note": "false of the code; exact value given"
  },
  {
   "property": "C49",
   "status": "proved",
   "theorems": [
    "C49_missing_column",
    "C49_groups"
   ],
   "note": "order of rows not modelled; columns with a value that hmean rejects are dropped by pandas"
  },
  {
   "property": "C50",
   "status": "proved",
   "theorems": [
    "C50_means",
    "C50_columns"
   ],
   "note": ""
  },
  {
   "property": "C51",
   "status": "proved",
   "theorems": [
    "C51_number_of_molecules",
    "C51_no_positions"
   ],
   "note": ""
  },
  {
   "property": "C52",
   "status": "proved",
   "theorems": [
    "C52_hoomd_lengths",
    "C52_lammps_lengths",
    "C52_image_refuted"
   ],
   "note": "the same claim for image is refuted"
  },
  {
   "property": "C53",
   "status": "proved",
   "theorems": [
    "C53_lammps_box",
    "C53_lammps_orientation"
   ],
   "note": ""
  },
  {
   "property": "C54",
   "status": "proved",
   "theorems": [
    "C54_filename_round_trip"
   ],
   "note": "numbers exact, paths POSIX strings"
  },
  {
   "property": "C55",
   "status": "partial",
   "theorems": [
    "C55_round_trip_refuted",
    "C54_filename_round_trip"
   ],
   "note": "false of the code; C54 is the part that holds"
  },
  {
   "property": "C56",
   "status": "proved",
   "theorems": [
    "C56_filename_fields",
    "C56_fields_exist",
    "C56_fields_determine"
   ],
   "note": ""
  },
  {
   "property": "C57",
   "status": "partial",
   "theorems": [
    "C57_readme_refuted",
    "C57_name_refuted",
    "C57_unreadable_never_analysed",
    "C57_first_frame_ValueError",
    "C57_readable_partial"
   ],
   "note": "false of the code; exact condition given"
  },
  {
   "property": "C58",
   "status": "proved",
   "theorems": [
    "C58_set_filename_vars",
    "C58_unreadable_name",
    "C58_succeeds"
   ],
   "note": "float() is any function"
  },
  {
   "property": "C59",
   "status": "proved",
   "theorems": [
    "C59_temp_context_restores",
    "C59_reachable"
   ],
   "note": ""
  },
  {
   "property": "C60",
   "status": "partial",
   "theorems": [
    "C60_temp_context_refuted",
    "C60_exact_partial"
   ],
   "note": "false of the code; exact on normal exit without new attributes"
  },
  {
   "property": "C61",
   "status": "proved",
   "theorems": [
    "C61_paths",
    "C61_assign"
   ],
   "note": "for all code that does not touch the underscore attributes"
  },
  {
   "property": "C62",
   "status": "proved",
   "theorems": [
    "C62_parse_directory",
    "C62_unusable_file"
   ],
   "note": "the list of files is an input"
  },
  {
   "property": "C63",
   "status": "proved",
   "theorems": [
    "C63_freud_box",
    "C63_frame_boxes"
   ],
   "note": "about the arguments given to freud.box.Box"
  },
  {
   "property": "C64",
   "status": "proved",
   "theorems": [
    "C64_parse_back",
    "C64_every_entry",
    "C64_order_irrelevant",
    "C64_dos_line_ends"
   ],
   "note": "float() by contract, with an instance; ASCII text"
  },
  {
   "property": "C65",
   "status": "proved",
   "theorems": [
    "C65_wrong_header"
   ],
   "note": ""
  },
  {
   "property": "C66",
   "status": "proved",
   "theorems": [
    "C66_steps_max",
    "C66_no_limit"
   ],
   "note": ""
  },
  {
   "property": "C67",
   "status": "proved",
   "theorems": [
    "C67_true_displacement"
   ],
   "note": "over the reals; freud's wrap by contract, with an instance"
  },
  {
   "property": "C68",
   "status": "proved",
   "theorems": [
    "C68_modulo_box",
    "C68_single_update"
   ],
   "note": ""
  },
  {
   "property": "C69",
   "status": "proved",
   "theorems": [
    "C69_turns_accumulate"
   ],
   "note": ""
  },
  {
   "property": "C70",
   "status": "proved",
   "theorems": [
    "C70_orientation_gaps"
   ],
   "note": ""
  },
  {
   "property": "C71",
   "status": "proved",
   "theorems": [
    "C71_reference_frame"
   ],
   "note": "struct is not claimed"
  },
  {
   "property": "C72",
   "status": "proved",
   "theorems": [
    "C72_bounded",
    "C72_states"
   ],
   "note": ""
  },
  {
   "property": "C73",
   "status": "proved",
   "theorems": [
    "C73_inequalities"
   ],
   "note": ""
  },
  {
   "property": "C74",
   "status": "proved",
   "theorems": [
    "C74_renumbering"
   ],
   "note": "for whole runs, including frames that are rejected"
  },
  {
   "property": "C75",
   "status": "partial",
   "theorems": [
    "C75_all_quantities_partial",
    "C75_all_quantities_refuted",
    "C75_nine_refuted"
   ],
   "note": "false of the code below ten particles"
  },
  {
   "property": "C76",
   "status": "partial",
   "theorems": [
    "C76_fraction_refuted",
    "C76_fraction_partial"
   ],
   "note": "false of the code; exact fraction given"
  },
  {
   "property": "C77",
   "status": "partial",
   "theorems": [
    "C77_overlap_refuted",
    "C77_overlap_partial",
    "C77_three_refuted"
   ],
   "note": "false of the code below ten particles; np.argsort by contract, with an instance"
  },
  {
   "property": "C78",
   "status": "partial",
   "theorems": [
    "C78_own_motion_refuted",
    "C78_own_motion_partial",
    "C78_no_turn_partial"
   ],
   "note": "false of the code for two molecules"
  },
  {
   "property": "C79",
   "status": "partial",
   "theorems": [
    "C79_axis_refuted",
    "C79_axis_partial"
   ],
   "note": "false of the code; exact axis given"
  },
  {
   "property": "C80",
   "status": "proved",
   "theorems": [
    "C80_bounds",
    "C80_fully_ordered"
   ],
   "note": "aligned: the relative rotation is none or a half turn about any axis"
  },
  {
   "property": "C81",
   "status": "proved",
   "theorems": [
    "C81_rotation",
    "C81_sign"
   ],
   "note": ""
  },
  {
   "property": "C82",
   "status": "proved",
   "theorems": [
    "C82_planar"
   ],
   "note": ""
  },
  {
   "property": "C83",
   "status": "partial",
   "theorems": [
    "C83_missing_refuted",
    "C83_distances_partial"
   ],
   "note": "false of the code; exact result given"
  },
  {
   "property": "C84",
   "status": "proved",
   "theorems": [
    "C84_centred"
   ],
   "note": ""
  },
  {
   "property": "C85",
   "status": "proved",
   "theorems": [
    "C85_trimer",
    "C85_not_a_number"
   ],
   "note": "for angles of any size the outer particles differ by a turn by that angle"
  },
  {
   "property": "C86",
   "status": "partial",
   "theorems": [
    "C86_equality_refuted",
    "C86_equality_partial",
    "C86_parameters_partial"
   ],
   "note": "false of the code; when it raises, and where it is an equivalence, given exactly"
  },
  {
   "property": "C87",
   "status": "proved",
   "theorems": [
    "C87_round_trip",
    "C87_any_angle",
    "C87_unit",
    "C87_bounds"
   ],
   "note": "the bound in three dimensions assumes that rowan's answer in gimbal lock is within it; over the reals, float32 rounding is not modelled"
  },
  {
   "property": "C88",
   "status": "proved",
   "theorems": [
    "C88_positions",
    "C88_rigid",
    "C88_mismatch"
   ],
   "note": ""
  },
  {
   "property": "C89",
   "status": "proved",
   "theorems": [
    "C89_columns",
    "C89_both",
    "C89_categories"
   ],
   "note": ""
  },
  {
   "property": "C90",
   "status": "proved",
   "theorems": [
    "C90_palette",
    "C90_exact"
   ],
   "note": ""
  },
  {
   "property": "C91",
   "status": "partial",
   "theorems": [
    "C91_frame_refuted",
    "C91_range_refuted",
    "C91_bounds_partial",
    "C91_stays_partial",
    "C91_recovers_partial"
   ],
   "note": "false of the code; how far it can be off and when it recovers given exactly"
  },
  {
   "property": "C92",
   "status": "proved",
   "theorems": [
    "C92_selected_file",
    "C92_every_file",
    "C92_no_files"
   ],
   "note": "also after actions that raised; every file that is not hidden by a later one of the same values can be selected"
  },
  {
   "property": "C93",
   "status": "partial",
   "theorems": [
    "C93_options_refuted",
    "C93_options_partial",
    "C93_usage_partial",
    "C93_error_partial"
   ],
   "note": "false of the code with --molecule or --output; exact behaviour in all cases given"
  },
  {
   "property": "C94",
   "status": "partial",
   "theorems": [
    "C94_kept_lists_refuted",
    "C94_kept_lists_partial"
   ],
   "note": "false of the code; exact condition given"
  },
  {
   "property": "C95",
   "status": "partial",
   "theorems": [
    "C95_replaces_refuted",
    "C95_replaces_partial"
   ],
   "note": "false of the code; exact condition given"
  },
  {
   "property": "C96",
   "status": "partial",
   "theorems": [
    "C96_stale_rows_refuted",
    "C96_stale_rows_partial"
   ],
   "note": "false of the code when there is no row"
  },
  {
   "property": "C97",
   "status": "proved",
   "theorems": [
    "C97_exact_decay",
    "C97_other_cases"
   ],
   "note": "curve_fit and newton by contract, with instances; over the reals"
  },
  {
   "property": "C98",
   "status": "partial",
   "theorems": [
    "C98_error_sign_refuted",
    "C98_error_partial",
    "C98_negative_refuted"
   ],
   "note": "false of the code; exact error given"
  },
  {
   "property": "C99",
   "status": "partial",
   "theorems": [
    "C99_gaps_refuted",
    "C99_sigma_refuted",
    "C99_without_sigma_partial"
   ],
   "note": "false of the code for every such input"
  },
  {
   "property": "C100",
   "status": "partial",
   "theorems": [
    "C100_all_keyframes_refuted",
    "C100_rows_partial"
   ],
   "note": "false of the code; exact rows given"
  },
  {
   "property": "C101",
   "status": "partial",
   "theorems": [
    "C101_always_a_length_refuted",
    "C101_always_a_length_partial"
   ],
   "note": "false of the code; exact condition given"
  },
  {
   "property": "C102",
   "status": "partial",
   "theorems": [
    "C102_cut_refuted",
    "C102_cut_partial"
   ],
   "note": "false of the code; true for cuts at line ends"
  },
  {
   "property": "C103",
   "status": "partial",
   "theorems": [
    "C103_tilt_refuted",
    "C103_tilt_partial"
   ],
   "note": "false of the code; exact box given"
  },
  {
   "property": "C104",
   "status": "proved",
   "theorems": [
    "C104_rows_labelled"
   ],
   "note": ""
  },
  {
   "property": "C105",
   "status": "partial",
   "theorems": [
    "C105_wrong_size_refuted",
    "C105_wrong_size_partial"
   ],
   "note": "false of the code for a frame of one particle"
  },
  {
   "property": "C106",
   "status": "partial",
   "theorems": [
    "C106_rejected_refuted",
    "C106_rejected_partial"
   ],
   "note": "false of the code when orientations are rejected"
  },
  {
   "property": "C107",
   "status": "partial",
   "theorems": [
    "C107_axis_refuted",
    "C107_axis_partial"
   ],
   "note": "false of the code for the y axis"
  },
  {
   "property": "C108",
   "status": "proved",
   "theorems": [
    "C108_planar_rotation"
   ],
   "note": ""
  },
  {
   "property": "C109",
   "status": "proved",
   "theorems": [
    "C109_true_averages"
   ],
   "note": "overlap and struct are not part of the claim (C77, C78)"
  },
  {
   "property": "C110",
   "status": "partial",
   "theorems": [
    "C110_count_refuted",
    "C110_count_partial"
   ],
   "note": "false of the code; exact result given; freud by contract, with an instance"
  },
  {
   "property": "C111",
   "status": "partial",
   "theorems": [
    "C111_arguments_refuted",
    "C111_arguments_partial"
   ],
   "note": "false of the code; exact condition given"
  },
  {
   "property": "C112",
   "status": "partial",
   "theorems": [
    "C112_integer_refuted",
    "C112_dimer_partial",
    "C112_three_refuted"
   ],
   "note": "false of the code for every integer"
  },
  {
   "property": "C113",
   "status": "partial",
   "theorems": [
    "C113_radii_refuted",
    "C113_radii_partial",
    "C113_radii_exact_partial"
   ],
   "note": "false of plain molecules; true of the classes provided"
  },
  {
   "property": "C114",
   "status": "partial",
   "theorems": [
    "C114_types_refuted",
    "C114_types_partial",
    "C114_classes"
   ],
   "note": "false of the code; exact list given"
  },
  {
   "property": "C115",
   "status": "partial",
   "theorems": [
    "C115_rotation_refuted",
    "C115_rotation_partial",
    "C115_only_zero_partial"
   ],
   "note": "false of the code; exact result given"
  },
  {
   "property": "C116",
   "status": "partial",
   "theorems": [
    "C116_relative_refuted",
    "C116_relative_partial"
   ],
   "note": "false of the code; exact result given"
  },
  {
   "property": "C117",
   "status": "partial",
   "theorems": [
    "C117_legend_refuted",
    "C117_legend_partial",
    "C117_zero_refuted"
   ],
   "note": "false of the code for every angle"
  },
  {
   "property": "C118",
   "status": "partial",
   "theorems": [
    "C118_alternative_refuted",
    "C118_alternative_partial"
   ],
   "note": "false of the code; true of native types and categories"
  },
  {
   "property": "C119",
   "status": "proved",
   "theorems": [
    "C119_shown"
   ],
   "note": "files do not change while the figure exists, no other figure loads models meanwhile"
  },
  {
   "property": "C120",
   "status": "proved",
   "theorems": [
    "C120_playing"
   ],
   "note": ""
  },
  {
   "property": "C121",
   "status": "partial",
   "theorems": [
    "C121_own_refuted",
    "C121_replaced_refuted",
    "C121_label_partial",
    "C121_fault"
   ],
   "note": "false of the code; exact meaning of a label given"
  },
  {
   "property": "C122",
   "status": "partial",
   "theorems": [
    "C122_custom_refuted",
    "C122_never_works"
   ],
   "note": "false of the code for every input"
  },
  {
   "property": "C123",
   "status": "partial",
   "theorems": [
    "C123_skips_refuted",
    "C123_rows_partial",
    "C123_stops_partial"
   ],
   "note": "false of the code; exact output given"
  },
  {
   "property": "C124",
   "status": "partial",
   "theorems": [
    "C124_fraction_refuted",
    "C124_fraction_partial"
   ],
   "note": "false of the code for molecules of several particles"
  },
  {
   "property": "C125",
   "status": "partial",
   "theorems": [
    "C125_mean_refuted",
    "C125_mean_partial"
   ],
   "note": "false of the code; exact value given"
  },
  {
   "property": "C126",
   "status": "proved",
   "theorems": [
    "C126_trajectory",
    "C126_exact_times"
   ],
   "note": "wave_number given, Trimer, output file, default relaxations; tau_L only away from rounding of its thresholds"
  },
  {
   "property": "C127",
   "status": "partial",
   "theorems": [
    "C127_changing_box_refuted",
    "C127_unwrapped_partial"
   ],
   "note": "false of the code; holds for positions that are not wrapped"
  },
  {
   "property": "C128",
   "status": "proved",
   "theorems": [
    "C128_gsd_exponential"
   ],
   "note": "wave_number given, output file; steps in the file all on the sequences, or all steps of the sequences in the file; keyframe_interval on the grid (C10)"
  },
  {
   "property": "C129",
   "status": "proved",
   "theorems": [
    "C129_gsd_linear"
   ],
   "note": "wave_number given, output file"
  },
  {
   "property": "C130",
   "status": "proved",
   "theorems": [
    "C130_lammps"
   ],
   "note": "wave_number given, output file; conversion to single precision idempotent"
  },
  {
   "property": "C131",
   "status": "proved",
   "theorems": [
    "C131_wave_vectors"
   ],
   "note": "reals; both arguments by position"
  },
  {
   "property": "C132",
   "status": "partial",
   "theorems": [
    "C132_own_array_partial",
    "C132_own_array_refuted"
   ],
   "note": "false: the cached array itself is returned; stores into arrays got with other arguments do no harm"
  },
  {
   "property": "C133",
   "status": "partial",
   "theorems": [
    "C133_computed_once_partial",
    "C133_computed_once_refuted"
   ],
   "note": "false after 128 other pairs of arguments; true with fewer in between"
  },
  {
   "property": "C134",
   "status": "proved",
   "theorems": [
    "C134_symmetry",
    "C134_scattering"
   ],
   "note": "reals"
  },
  {
   "property": "C135",
   "status": "proved",
   "theorems": [
    "C135_wave_number",
    "C135_density",
    "C135_same_function"
   ],
   "note": "for any freud RDF (contract rdf_ok)"
  },
  {
   "property": "C136",
   "status": "partial",
   "theorems": [
    "C136_units_partial",
    "C136_units_refuted",
    "C136_hundred_refuted"
   ],
   "note": "false for every configuration and every unit more than 40 times smaller; the answer is always on the grid from 0.5 to 20"
  },
  {
   "property": "C137",
   "status": "partial",
   "theorems": [
    "C137_every_box_partial",
    "C137_every_box_refuted"
   ],
   "note": "false for tilted boxes; exact condition in the plane"
  },
  {
   "property": "C138",
   "status": "proved",
   "theorems": [
    "C138_default_wave_number"
   ],
   "note": "Trimer, output file, default relaxations; for any freud RDF (contract rdf_ok)"
  },
  {
   "property": "C139",
   "status": "partial",
   "theorems": [
    "C139_tilted_partial",
    "C139_tilted_refuted"
   ],
   "note": "false: one frame in a tilted box, wherever it is, raises RuntimeError"
  },
  {
   "property": "C140",
   "status": "proved",
   "theorems": [
    "C140_gsd_exponential",
    "C140_gsd_linear",
    "C140_lammps"
   ],
   "note": "restrictions as for C128-C130"
  },
  {
   "property": "C141",
   "status": "proved",
   "theorems": [
    "C141_windows"
   ],
   "note": "over the reals; integer steps; 5 ns for each step exactly; includes that the description determines the result"
  },
  {
   "property": "C142",
   "status": "partial",
   "theorems": [
    "C142_shown_partial",
    "C142_shown_refuted"
   ],
   "note": "false for steps less than 200000 apart"
  },
  {
   "property": "C143",
   "status": "partial",
   "theorems": [
    "C143_selected_partial",
    "C143_distinct_names_partial",
    "C143_name_partial",
    "C143_selected_refuted"
   ],
   "note": "false after a change of directory; what is shown instead is proved for all runs"
  },
  {
   "property": "C144",
   "status": "partial",
   "theorems": [
    "C144_quantity_partial",
    "C144_quantity_refuted"
   ],
   "note": "false: third column of the new file"
  },
  {
   "property": "C145",
   "status": "partial",
   "theorems": [
    "C145_plots_partial",
    "C145_plots_refuted"
   ],
   "note": "false if started without files"
  },
  {
   "property": "C146",
   "status": "partial",
   "theorems": [
    "C146_recovers_partial",
    "C146_reported_partial",
    "C146_unchanged_refuted"
   ],
   "note": "false: name and factors change while the plots stay"
  },
  {
   "property": "C147",
   "status": "proved",
   "theorems": [
    "C147_exponential",
    "C147_linear",
    "C147_lammps"
   ],
   "note": "composition of C93, C128, C129, C130"
  },
  {
   "property": "C148",
   "status": "partial",
   "theorems": [
    "C148_nonpositive_partial",
    "C148_wave_refuted"
   ],
   "note": "false for wave numbers <= 0, for which all analyses fail; positive ones are C147"
  },
  {
   "property": "C149",
   "status": "partial",
   "theorems": [
    "C149_lammps_partial",
    "C149_keyframes_refuted"
   ],
   "note": "false for lammpstrj, true for gsd (C147)"
  },
  {
   "property": "C150",
   "status": "partial",
   "theorems": [
    "C150_suffix_partial",
    "C150_suffix_refuted"
   ],
   "note": "false: UnboundLocalError; tables unchanged"
  },
  {
   "property": "C151",
   "status": "proved",
   "theorems": [
    "C151_relaxations",
    "C151_commands",
    "C151_commands_linear"
   ],
   "note": "C151_relaxations from what comp-dynamics writes in any of the modes of C147; C151_commands composes it with the gsd reader and the command line; C151_commands_linear does so for evenly spaced key frames"
  },
  {
   "property": "C152",
   "status": "partial",
   "theorems": [
    "C152_unnamed_partial",
    "C152_unnamed_refuted"
   ],
   "note": "false: without temperature or pressure in the name there is never a row; with both it is C151"
  },
  {
   "property": "C153",
   "status": "partial",
   "theorems": [
    "C153_by_molecule_partial",
    "C153_by_particle_refuted"
   ],
   "note": "false in the order of orientation2positions, true for particles listed molecule by molecule"
  },
  {
   "property": "C154",
   "status": "partial",
   "theorems": [
    "C154_none_partial",
    "C154_unrelaxed_refuted"
   ],
   "note": "false; the mark is kept only if all particles are unrelaxed"
  },
  {
   "property": "C155",
   "status": "partial",
   "theorems": [
    "C155_last_partial",
    "C155_live_partial",
    "C155_snapshot_refuted"
   ],
   "note": "false for MolecularRelaxation, true for LastMolecularRelaxation"
  },
  {
   "property": "C156",
   "status": "partial",
   "theorems": [
    "C156_gsd_partial",
    "C156_lammps_partial",
    "C156_interval_refuted"
   ],
   "note": "true for gsd; lammpstrj files are proved to be read whole for every interval"
  },
  {
   "property": "C157",
   "status": "partial",
   "theorems": [
    "C157_gsd_partial",
    "C157_lammps_partial",
    "C157_reported_refuted"
   ],
   "note": "true for gsd; for lammpstrj the result is proved not to depend on the arguments"
  },
  {
   "property": "C158",
   "status": "partial",
   "theorems": [
    "C158_missing_partial",
    "C158_silent_partial",
    "C158_unsupported_refuted"
   ],
   "note": "false for every name of another kind; missing files of the two kinds are reported"
  },
  {
   "property": "C159",
   "status": "proved",
   "theorems": [
    "C159_relative",
    "C159_ml",
    "C159_order"
   ],
   "note": "freud's neighbours by contract: the nearest molecules within the radius, nearest first, ties in any order"
  },
  {
   "property": "C160",
   "status": "proved",
   "theorems": [
    "C160_relative",
    "C160_order",
    "C160_ml"
   ],
   "note": ""
  },
  {
   "property": "C161",
   "status": "proved",
   "theorems": [
    "C161_local"
   ],
   "note": ""
  },
  {
   "property": "C162",
   "status": "partial",
   "theorems": [
    "C162_sign_partial",
    "C162_sign_refuted"
   ],
   "note": "false; true for quaternions on the same side"
  },
  {
   "property": "C163",
   "status": "proved",
   "theorems": [
    "C163_ordered",
    "C163_threshold"
   ],
   "note": "freud's nearest neighbours by contract (NeighSpec.answers); the criterion is shown where it is clear which neighbours are the nearest."
  },
  {
   "property": "C164",
   "status": "partial",
   "theorems": [
    "C164_average_partial",
    "C164_average_refuted"
   ],
   "note": "Missing neighbours count as fully aligned: true if all max_neighbours are there; otherwise the value is between the average and 1, and 1 for a molecule without neighbours. Refuted: two molecules at right angles have 7/8 and are ordered at the threshold 0.8."
  },
  {
   "property": "C165",
   "status": "partial",
   "theorems": [
    "C165_file_partial",
    "C165_file_refuted"
   ],
   "note": "True if --log-file stands before any -v. Refuted: after -v the file is ignored, since basicConfig does nothing the second time."
  },
  {
   "property": "C166",
   "status": "partial",
   "theorems": [
    "C166_level_partial",
    "C166_level_refuted"
   ],
   "note": "True without --log-file or with a -v before it. Refuted: with --log-file first every message is logged, whatever -v."
  },
  {
   "property": "C167",
   "status": "proved",
   "theorems": [
    "C167_interactive",
    "C167_libraries"
   ],
   "note": ""
  },
  {
   "property": "C168",
   "status": "proved",
   "theorems": [
    "C168_start",
    "C168_exists"
   ],
   "note": "The code has no other use of the two external routines."
  },
  {
   "property": "C169",
   "status": "proved",
   "theorems": [
    "C169_accurate",
    "C169_never_late"
   ],
   "note": "Over the reals; curve_fit by contract (recovers an exact decay); scipy's Newton loop is modelled, with either stopping test."
  },
  {
   "property": "C170",
   "status": "proved",
   "theorems": [
    "C170_columns",
    "C170_missing"
   ],
   "note": ""
  },
  {
   "property": "C171",
   "status": "proved",
   "theorems": [
    "C171_fault"
   ],
   "note": "float of a text is a parameter."
  },
  {
   "property": "C172",
   "status": "partial",
   "theorems": [
    "C172_unchanged_refuted",
    "C172_before_partial"
   ],
   "note": "Refuted: one definition with a negative threshold leaves an object without any relaxation. True: what is left are the definitions before the faulty one."
  },
  {
   "property": "C173",
   "status": "partial",
   "theorems": [
    "C173_origin_partial",
    "C173_entries_refuted"
   ],
   "note": "Refuted: two lines of the same atom, or a line that is too short, leave whatever np.empty had. True for every text: an entry is such a leftover or a number of the text, and all columns have one length; for well-formed frames see C64."
  },
  {
   "property": "C174",
   "status": "partial",
   "theorems": [
    "C174_bad_atom_partial",
    "C174_no_id_partial",
    "C174_ids_refuted"
   ],
   "note": "Refuted: ids from 0 down to 1-n are taken for atoms counted from the end. True in all other cases listed."
  },
  {
   "property": "C175",
   "status": "proved",
   "theorems": [
    "C175_file_name",
    "C175_no_molecule"
   ],
   "note": ""
  },
  {
   "property": "C176",
   "status": "partial",
   "theorems": [
    "C176_empty_partial",
    "C176_empty_refuted",
    "C176_threshold_refuted"
   ],
   "note": "Refuted for threshold_relaxation, np.argmax of nothing is a ValueError; true of the other four."
  },
  {
   "property": "C177",
   "status": "proved",
   "theorems": [
    "C177_init",
    "C177_struct"
   ],
   "note": ""
  },
  {
   "property": "C178",
   "status": "proved",
   "theorems": [
    "C178_output"
   ],
   "note": ""
  },
  {
   "property": "C179",
   "status": "partial",
   "theorems": [
    "C179_apart_partial",
    "C179_apart_refuted"
   ],
   "note": "Refuted: from the eleventh class on all are gray. True while there are no more classes than colours."
  },
  {
   "property": "C180",
   "status": "partial",
   "theorems": [
    "C180_same_partial",
    "C180_same_refuted"
   ],
   "note": "Refuted without factors: the colour depends on the classes that occur. True with equal factors; classes that are no factor, or beyond the last colour, are gray."
  },
  {
   "property": "C181",
   "status": "partial",
   "theorems": [
    "C181_kept_partial",
    "C181_refused_partial",
    "C181_kept_refuted"
   ],
   "note": "Refuted for a source that is used again: the first figure shows the second frame with the colours of the first. True otherwise; a call that raises leaves all sources alone."
  },
  {
   "property": "C182",
   "status": "partial",
   "theorems": [
    "C182_unit_partial",
    "C182_unit_refuted"
   ],
   "note": "Refuted: the tolerance 1e-4 of Newton's method is absolute, times of order 1e-6 are returned after one step. True up to this tolerance, in either unit."
  },
  {
   "property": "C183",
   "status": "partial",
   "theorems": [
    "C183_columns_partial",
    "C183_columns_refuted"
   ],
   "note": "Refuted: a relaxation called temperature or pressure is overwritten, one called keyframe or molecule makes the call fail with ValueError after dynamics has been written. True of all other names."
  },
  {
   "property": "C184",
   "status": "partial",
   "theorems": [
    "C184_shape_partial",
    "C184_shape_refuted"
   ],
   "note": "Refuted: plain Molecules are always equal, and Trimers whose angles differ by 720 degrees have one shape but are not equal. True: equal Trimers, and equal Dimers, have the same particles, positions and radii."
  },
  {
   "property": "C185",
   "status": "partial",
   "theorems": [
    "C185_text_partial",
    "C185_text_refuted"
   ],
   "note": "Refuted: equal Trimers with different moments of inertia, or numbers once int and once float, have different texts. True: the text determines the class and all four numbers, and so equality but for NaN."
  },
  {
   "property": "C186",
   "status": "partial",
   "theorems": [
    "C186_row_partial",
    "C186_row_refuted"
   ],
   "note": "Refuted: the time is the index of the row, which starts again at 0 with every 8192 rows written, so a decay at row 8192 is reported as 0. True of tables of at most 8192 rows; in general the time is the row modulo 8192."
  },
  {
   "property": "C187",
   "status": "proved",
   "theorems": [
    "C187_delete"
   ],
   "note": "For all objects and names."
  },
  {
   "property": "C188",
   "status": "proved",
   "theorems": [
    "C188_zero",
    "C188_negative"
   ],
   "note": "For all trajectories with a frame that can be read, after any number which cannot."
  },
  {
   "property": "C189",
   "status": "proved",
   "theorems": [
    "C189_columns"
   ],
   "note": "From the text of the file to the frames which process_file gets."
  },
  {
   "property": "C190",
   "status": "proved",
   "theorems": [
    "C190_bounds",
    "C190_start"
   ],
   "note": "For every rounding satisfying the contract, and every order and grouping of the additions."
  },
  {
   "property": "C191",
   "status": "partial",
   "theorems": [
    "C191_error_partial",
    "C191_numbering_partial",
    "C191_numbering_refuted"
   ],
   "note": "Refuted in IEEE double precision (three molecules). True: two orders differ by at most 2(N+7) relative rounding errors, and each average by N+7 from the true one."
  },
  {
   "property": "C192",
   "status": "partial",
   "theorems": [
    "C192_alpha_partial",
    "C192_alpha_refuted",
    "C192_minus_one"
   ],
   "note": "Refuted in IEEE double precision (six molecules with equal displacements give less than -1/2). True: the ratio has at most 3N+16 relative errors; never below -1."
  },
  {
   "property": "C193",
   "status": "partial",
   "theorems": [
    "C193_track_partial",
    "C193_track_refuted"
   ],
   "note": "Refuted in IEEE single precision: after 5/4, steps of 2^-25 are lost, however many. True: the error is at most ((1+u)^n - 1) times the length of the path."
  },
  {
   "property": "C194",
   "status": "proved",
   "theorems": [
    "C194_tenth"
   ],
   "note": "Also justifies the division by 10 of DynModel.mobile_overlap."
  },
  {
   "property": "C195",
   "status": "partial",
   "theorems": [
    "C195_values_partial",
    "C195_process_file",
    "C195_buffer_refuted",
    "C195_refuted"
   ],
   "note": "Refuted: the last frame is kept by reference; with one buffer for all frames no motion is ever seen. True, by refinement of the models with values: if arrays in use (results and last frames) are not written to, and results not passed as frames. process_file is such a caller, which justifies the models with values used for it."
  },
  {
   "property": "C196",
   "status": "partial",
   "theorems": [
    "C196_kept_partial",
    "C196_live",
    "C196_refuted"
   ],
   "note": "Refuted: the arrays are updated in place, and are the same for the whole life of the object. True: kept while no frame is added to the same object."
  },
  {
   "property": "C197",
   "status": "partial",
   "theorems": [
    "C197_refuted",
    "C197_floats_partial",
    "C197_added_refuted"
   ],
   "note": "Refuted: no frame can ever be added (TypeError of numpy). The same positions as floats are accepted."
  },
  {
   "property": "C198",
   "status": "partial",
   "theorems": [
    "C198_refuted",
    "C198_kept_partial",
    "C198_unrotated",
    "C198_zeros_refuted"
   ],
   "note": "Refuted: zeros are overwritten by (1,0,0,0). Arrays of unit quaternions are left alone, and zeros mean no rotation."
  },
  {
   "property": "C199",
   "status": "partial",
   "theorems": [
    "C199_lammps_partial",
    "C199_lammps_refuted"
   ],
   "note": "Refuted: the frames have no orientations, so the rotational times are never reached and every key frame is dropped. The commands finish and the table is always empty; the times of molecules for distances are in the file (C147_lammps)."
  },
  {
   "property": "C200",
   "status": "partial",
   "theorems": [
    "C200_lost_partial",
    "C200_refuted"
   ],
   "note": "Refuted: process_file ends in the exception of the reader; neither the last block of rows nor any relaxation time is written, and tables of an earlier analysis stay. Only whole blocks of 8192 rows are saved. In a gsd file corrupted frames are skipped instead (C128, C129)."
  },
  {
   "property": "C201",
   "status": "partial",
   "theorems": [
    "C201_linear_partial",
    "C201_exponential_partial",
    "C201_lammps_partial",
    "C201_refuted"
   ],
   "note": "True without linear steps, for lammpstrj files, and with linear steps if there is a snapshot at step m.  Refuted otherwise: the series of steps ends with m itself, so with steps_max 25 the last frame (step 20) of a file is not analysed although it is without steps_max."
  },
  {
   "property": "C202",
   "status": "proved",
   "theorems": [
    "C202_same_motion"
   ],
   "note": "Contracts: Box.wrap is periodic and the gimbal-lock branch of to_euler is even (instances given); if the wave number is computed, that computation does not depend on origin and images (shown for the model of WaveModel)."
  },
  {
   "property": "C203",
   "status": "proved",
   "theorems": [
    "C203_unit_of_length"
   ],
   "note": "Wave number given, default definitions.  Contracts: Box.wrap commutes with the factor (instance: freud), argsort as well, and the rounding of floats does (binary floats for powers of two)."
  },
  {
   "property": "C204",
   "status": "partial",
   "theorems": [
    "C204_gsd_partial",
    "C204_lammps_partial",
    "C204_refuted",
    "C204_exponential_refuted"
   ],
   "note": "True for lammpstrj files, and for gsd files without linear steps if c is a multiple of keyframe_interval.  Refuted otherwise: with no snapshot at a multiple of keyframe_interval there is no key frame, and the analysis ends in a ValueError; with linear steps the series starts at step 0, so two of three frames are not analysed."
  },
  {
   "property": "C205",
   "status": "proved",
   "theorems": [
    "C205_films"
   ],
   "note": "The rows are compared exactly.  tau_L is not a first passage time; C205_last_earlier shows that it can be earlier with a frame left out."
  },
  {
   "property": "C206",
   "status": "partial",
   "theorems": [
    "C206_renumbered_partial",
    "C206_overlap_partial",
    "C206_struct_refuted"
   ],
   "note": "False for two columns.  \"struct\" combines the rotation of one molecule with the displacement of another, so it depends on the numbering (C206_struct_refuted).  \"overlap\" depends on the order of the sort among ties; it is the same when there are no ties (C206_overlap_partial).  All other columns, the errors and all relaxation times are as stated (C206_renumbered_partial).  The radial distribution function is assumed not to depend on the order of the positions; C206_histogram shows it of a histogram of pairs."
  },
  {
   "property": "C207",
   "status": "proved",
   "theorems": [
    "C207_film",
    "C207_gsd"
   ],
   "note": "C207_limit shows what happens beyond 2^32 - 1: a molecule that moved is not counted as relaxed.  With linear steps the series of steps is absolute (C204, C25), so no factor applies to the reader."
  },
  {
   "property": "C208",
   "status": "partial",
   "theorems": [
    "C208_voronoi_partial",
    "C208_sparse_refuted"
   ],
   "note": "True when no circle of radius r with 2 r < 5 is free of particles (any density that a liquid or crystal has); refuted for five molecules in a box of 100 x 100, where the first has at least four neighbours and at most three are counted.  freud's buffer and qhull are contracts: the buffer has all images closer than 5 to a particle, qhull gives each pair of points that share an edge once, and an image of the particle itself is not counted (exclude_ii)."
  },
  {
   "property": "C209",
   "status": "proved",
   "theorems": [
    "C209_counted",
    "C209_moved"
   ],
   "note": "freud's buffer and qhull are the contracts of C208; images_buffered shows that the eight neighbouring copies of a rectangular box meet the first, ridges_exist the second.  The condition on empty circles cannot be dropped (C208_sparse_refuted)."
  },
  {
   "property": "C210",
   "status": "partial",
   "theorems": [
    "C210_offers_partial",
    "C210_numerical_partial",
    "C210_numerical_refuted"
   ],
   "note": "Complete, without duplicates and sorted as strings at all times; numerical order refuted, and proved for values of equal length with two decimals."
  },
  {
   "property": "C211",
   "status": "partial",
   "theorems": [
    "C211_models_partial",
    "C211_models_refuted"
   ],
   "note": "Refuted for models of the same stem and for stems of built-in functions; every model that no later one of the same stem replaces, and every built-in function whose name no model has, can be chosen."
  },
  {
   "property": "C212",
   "status": "proved",
   "theorems": [
    "C212_windows",
    "C212_determined"
   ],
   "note": "Contract of bokeh: FunctionHandler calls make_document for each new window, with the partial of the command; callbacks run one after the other.  The files of the directory and of the models do not change while the server runs."
  },
  {
   "property": "C213",
   "status": "partial",
   "theorems": [
    "C213_axes_partial",
    "C213_struct_refuted"
   ],
   "note": "All columns except struct, and the scattering function for rotations by whole degrees; the relaxation times are equal. C213_struct_refuted: the struct column of a trajectory is 0 in one orientation and 1 after a right angle. For other angles the scattering function differs by the discretisation of the directions, which is not modelled as an error bound."
  },
  {
   "property": "C214",
   "status": "proved",
   "theorems": [
    "C214_exponential",
    "C214_linear",
    "C214_exponential_rows",
    "C214_linear_rows",
    "C214_mixed_file_refuted"
   ],
   "note": "C214_mixed_file_refuted: the condition on the file is needed; a file with frame 50, which is no step, loses its last frame when a second key frame is allowed."
  },
  {
   "property": "C215",
   "status": "partial",
   "theorems": [
    "C215_linear",
    "C215_steps_max",
    "C215_unfinished_partial",
    "C215_unfinished_refuted"
   ],
   "note": "false for the row of the last step with linear_steps and without steps_max; all earlier rows stay if the file has only steps of the series or all of them"
  },
  {
   "property": "C216",
   "status": "partial",
   "theorems": [
    "C216_last_analysis_partial",
    "C216_relaxations_partial",
    "C216_interrupted_partial",
    "C216_mixed_refuted",
    "C216_crash_refuted",
    "C216_stale_refuted"
   ],
   "note": "false when no frame could be analysed, after a crash, and for relaxations that were computed before; the rest is proved for every sequence of commands"
  },
  {
   "property": "C217",
   "status": "proved",
   "theorems": [
    "C217_independent",
    "C217_again",
    "C217_script",
    "C217_order_refuted"
   ],
   "note": "C217_order_refuted shows why the order of the commands is needed"
  },
  {
   "property": "C218",
   "status": "proved",
   "theorems": [
    "C218_times",
    "C218_averages",
    "C218_alpha_refuted"
   ],
   "note": "C218_times is for a given wave number only: one that is computed depends on all molecules. C218_averages is about exact real values; where quantities raises for a part (fewer than ten molecules, C75) there is no row to compare. C218_alpha_refuted shows the last sentence of the statement with a closed example of twenty molecules."
  },
  {
   "property": "C219",
   "status": "proved",
   "theorems": [
    "C219_distances",
    "C219_cutoff",
    "C219_default",
    "C219_cutoff_refuted"
   ],
   "note": "C219_cutoff_refuted shows that both conditions on the times are needed for tau_L <= tau_D. Three times the distance is computed exactly in the model (XNum.xtriple)."
  },
  {
   "property": "C220",
   "status": "proved",
   "theorems": [
    "C220_copies",
    "C220_overlap_refuted"
   ],
   "note": "C220_overlap_refuted shows why the overlap is left out. The struct column is left out because of the pairing of sites and molecules described under the claim on struct."
  },
  {
   "property": "C221",
   "status": "proved",
   "theorems": [
    "C221_backwards",
    "C221_struct_refuted"
   ],
   "note": "C221_struct_refuted shows why struct is left out: ten molecules that move by 1 and turn by a right angle have struct 1 forwards and 0 backwards."
  },
  {
   "property": "C222",
   "status": "proved",
   "theorems": [
    "C222_twice"
   ],
   "note": "Equality of the objects. Wrap of the zero vector is derived from the contract of freud's wrap; arithmetic is exact, so q/q is exactly one."
  }
 ]
}