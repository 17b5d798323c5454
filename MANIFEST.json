{
 "claims": [
  {
   "property": "C01",
   "status": "proved",
   "theorems": [
    "C01_chunks_partition"
   ],
   "note": ""
  },
  {
   "property": "C02",
   "status": "proved",
   "theorems": [
    "C02_sorted_descending",
    "C02_unorderable_in_order"
   ],
   "note": ""
  },
  {
   "property": "C03",
   "status": "proved",
   "theorems": [
    "C03_nonempty_chunks"
   ],
   "note": ""
  },
  {
   "property": "C04",
   "status": "proved",
   "theorems": [
    "C04_number_of_chunks",
    "C04_exact_number_refuted"
   ],
   "note": ""
  },
  {
   "property": "C05",
   "status": "proved",
   "theorems": [
    "C05_terminates",
    "C05_zero_raises",
    "C05_negative_never_returns",
    "C05_empty_sequence"
   ],
   "note": ""
  },
  {
   "property": "C06",
   "status": "proved",
   "theorems": [
    "C06_parallel_equals_sequential",
    "C06_same_exception"
   ],
   "note": ""
  },
  {
   "property": "C07",
   "status": "proved",
   "theorems": [
    "C07_more_workers_than_images"
   ],
   "note": ""
  },
  {
   "property": "C08",
   "status": "proved",
   "theorems": [
    "C08_mask_is_union"
   ],
   "note": ""
  },
  {
   "property": "C09",
   "status": "proved",
   "theorems": [
    "C09_result_shape",
    "C09_different_shapes_fail",
    "C09_empty_list"
   ],
   "note": ""
  },
  {
   "property": "C10",
   "status": "proved",
   "theorems": [
    "C10_order_irrelevant"
   ],
   "note": "Stated for given zero points, as in the property: the zero points themselves come from transparency."
  },
  {
   "property": "C11",
   "status": "proved",
   "theorems": [
    "C11_copies_scale_sqrt"
   ],
   "note": "Exact arithmetic; non-zero zero point, noise and PSF transform, so that no division by zero occurs."
  },
  {
   "property": "C12",
   "status": "proved",
   "theorems": [
    "C12_psf_sums_to_one"
   ],
   "note": "Exact arithmetic; the zero-frequency term of the combined PSF must not vanish."
  },
  {
   "property": "C13",
   "status": "proved",
   "theorems": [
    "C13_caller_list"
   ],
   "note": ""
  },
  {
   "property": "C14",
   "status": "proved",
   "theorems": [
    "C14_self_subtraction"
   ],
   "note": "Exact arithmetic, positive noise. Proved more generally for a new image that is k times the reference with flux ratio k."
  },
  {
   "property": "C15",
   "status": "proved",
   "theorems": [
    "C15_antisymmetry"
   ],
   "note": "Exact arithmetic, positive noise and flux ratio; the two runs may use different modes as long as they settle on b and 1/b with no shift."
  },
  {
   "property": "C16",
   "status": "proved",
   "theorems": [
    "C16_norm_positive"
   ],
   "note": ""
  },
  {
   "property": "C17",
   "status": "proved",
   "theorems": [
    "C17_sources",
    "C17_fallback",
    "C17_bounds",
    "C17_ratio_out_of_bounds"
   ],
   "note": "The solvers are arbitrary functions; that least_squares refuses a start outside the bounds is part of the model of scipy."
  },
  {
   "property": "C18",
   "status": "proved",
   "theorems": [
    "C18_mask_union",
    "C18_different_shapes_fail"
   ],
   "note": ""
  },
  {
   "property": "C19",
   "status": "proved",
   "theorems": [
    "C19_small_objective_constant",
    "C19_small_same_answer",
    "C19_small_may_fail",
    "C19_large_window"
   ],
   "note": "numpy.ma.masked is None in the model. That scipy refuses such an objective is a hypothesis of C19_small_may_fail."
  },
  {
   "property": "C20",
   "status": "proved",
   "theorems": [
    "C20_gain",
    "C20_pixels"
   ],
   "note": "Cells already masked when the gain is applied keep their value (numpy.ma), see scaled in Spec/Image.v."
  },
  {
   "property": "C21",
   "status": "proved",
   "theorems": [
    "C21_crop_window",
    "C21_crop_empty",
    "C21_crop_discarded"
   ],
   "note": ""
  },
  {
   "property": "C22",
   "status": "proved",
   "theorems": [
    "C22_border_window",
    "C22_uniform_frame",
    "C22_uneven_frame",
    "C22_unbound"
   ],
   "note": ""
  },
  {
   "property": "C23",
   "status": "proved",
   "theorems": [
    "C23_construct_mask",
    "C23_assign_mask",
    "C23_out_of_range",
    "C23_non_finite",
    "C23_nan_unmasked"
   ],
   "note": ""
  },
  {
   "property": "C24",
   "status": "proved",
   "theorems": [
    "C24_rounds",
    "C24_local",
    "C24_monotone",
    "C24_isolated"
   ],
   "note": ""
  },
  {
   "property": "C25",
   "status": "proved",
   "theorems": [
    "C25_flat_cyclic"
   ],
   "note": "The case of equal shapes, pixel by pixel, is C24_rounds."
  },
  {
   "property": "C26",
   "status": "proved",
   "theorems": [
    "C26_round_trip",
    "C26_lost",
    "C26_all_masked"
   ],
   "note": ""
  },
  {
   "property": "C27",
   "status": "proved",
   "theorems": [
    "C27_guard_moot"
   ],
   "note": ""
  },
  {
   "property": "C28",
   "status": "proved",
   "theorems": [
    "C28_no_nan",
    "C28_good_pixels",
    "C28_bad_pixels",
    "C28_terminates",
    "C28_never_returns",
    "C28_cosmic_rays_refuted"
   ],
   "note": ""
  },
  {
   "property": "C29",
   "status": "proved",
   "theorems": [
    "C29_bounded_selection",
    "C29_exact_selection",
    "C29_percentile"
   ],
   "note": ""
  },
  {
   "property": "C30",
   "status": "proved",
   "theorems": [
    "C30_detection_policy",
    "C30_detection_failure"
   ],
   "note": ""
  },
  {
   "property": "C31",
   "status": "proved",
   "theorems": [
    "C31_default_stamp"
   ],
   "note": ""
  },
  {
   "property": "C32",
   "status": "proved",
   "theorems": [
    "C32_shapes",
    "C32_centre",
    "C32_extraction_succeeds",
    "C32_inside_overlaps",
    "C32_flat_border",
    "C32_one_spoils_all"
   ],
   "note": ""
  },
  {
   "property": "C33",
   "status": "proved",
   "theorems": [
    "C33_bookkeeping",
    "C33_alone",
    "C33_repeatable"
   ],
   "note": ""
  },
  {
   "property": "C34",
   "status": "proved",
   "theorems": [
    "C34_strict_always",
    "C34_rejected",
    "C34_disabled_refuted"
   ],
   "note": ""
  },
  {
   "property": "C35",
   "status": "proved",
   "theorems": [
    "C35_unit_sum"
   ],
   "note": ""
  },
  {
   "property": "C36",
   "status": "proved",
   "theorems": [
    "C36_not_read",
    "C36_sources",
    "C36_before",
    "C36_no_effect",
    "C36_redetect"
   ],
   "note": "Over the model of the cached attributes (Model/Session.v), for every state in which the sources were looked at."
  },
  {
   "property": "C37",
   "status": "proved",
   "theorems": [
    "C37_covariance",
    "C37_shapes"
   ],
   "note": ""
  },
  {
   "property": "C38",
   "status": "proved",
   "theorems": [
    "C38_number_of_elements",
    "C38_monotone",
    "C38_exists"
   ],
   "note": ""
  },
  {
   "property": "C39",
   "status": "proved",
   "theorems": [
    "C39_history",
    "C39_fields",
    "C39_stable",
    "C39_assignment",
    "C39_assignment_refuted"
   ],
   "note": "Histories of plain calls (Spec/Session.v) from a new image; library calls (source selection, extraction, eigh, fits) are functions of a record with hypotheses on lengths only. C39_assignment and C39_assignment_refuted show what assigning the attribute does."
  },
  {
   "property": "C40",
   "status": "proved",
   "theorems": [
    "C40_history",
    "C40_new",
    "C40_untouched",
    "C40_stale",
    "C40_zero_point_refuted"
   ],
   "note": "C40_zero_point_refuted: the filtered image need not have the zero point in force."
  },
  {
   "property": "C41",
   "status": "proved",
   "theorems": [
    "C41_current",
    "C41_unchanged",
    "C41_returned",
    "C41_return_refuted"
   ],
   "note": "C41_return_refuted exhibits the return to the first loss."
  },
  {
   "property": "C42",
   "status": "proved",
   "theorems": [
    "C42_history",
    "C42_once",
    "C42_loss_refuted"
   ],
   "note": "C42_loss_refuted: it need not be the one for the loss in force."
  },
  {
   "property": "C43",
   "status": "proved",
   "theorems": [
    "C43_inside",
    "C43_single",
    "C43_even_fails",
    "C43_edge_fails",
    "C43_wraps_refuted",
    "C43_last_row_refuted"
   ],
   "note": ""
  },
  {
   "property": "C44",
   "status": "proved",
   "theorems": [
    "C44_matched",
    "C44_one_to_one",
    "C44_within_radius",
    "C44_strict_nearest"
   ],
   "note": ""
  },
  {
   "property": "C45",
   "status": "proved",
   "theorems": [
    "C45_mask",
    "C45_zero_unflagged"
   ],
   "note": ""
  },
  {
   "property": "C46",
   "status": "proved",
   "theorems": [
    "C46_offset",
    "C46_min_norm",
    "C46_unique"
   ],
   "note": ""
  },
  {
   "property": "C47",
   "status": "proved",
   "theorems": [
    "C47_layout",
    "C47_right",
    "C47_identical_wrong"
   ],
   "note": ""
  },
  {
   "property": "C48",
   "status": "proved",
   "theorems": [
    "C48_no_common",
    "C48_total"
   ],
   "note": ""
  },
  {
   "property": "C49",
   "status": "proved",
   "theorems": [
    "C49_detected",
    "C49_fresh",
    "C49_stale_refuted"
   ],
   "note": ""
  },
  {
   "property": "C50",
   "status": "proved",
   "theorems": [
    "C50_one_entry_per_region",
    "C50_inside_box",
    "C50_neighborhood_ignored",
    "C50_below_threshold_refuted"
   ],
   "note": ""
  },
  {
   "property": "C51",
   "status": "proved",
   "theorems": [
    "C51_largest_prime_factor",
    "C51_two_largest",
    "C51_divides"
   ],
   "note": ""
  },
  {
   "property": "C52",
   "status": "proved",
   "theorems": [
    "C52_grid_has_room",
    "C52_automatic_axes",
    "C52_automatic_axes_coef"
   ],
   "note": ""
  },
  {
   "property": "C53",
   "status": "proved",
   "theorems": [
    "C53_dispatch"
   ],
   "note": ""
  },
  {
   "property": "C54",
   "status": "proved",
   "theorems": [
    "C54_psf_normalised",
    "C54_psf_nan",
    "C54_psf_not_symmetric",
    "C54_psf_rotated"
   ],
   "note": ""
  },
  {
   "property": "C55",
   "status": "proved",
   "theorems": [
    "C55_delta_weights",
    "C55_delta_errors",
    "C55_delta_no_weights",
    "C55_delta_center"
   ],
   "note": ""
  },
  {
   "property": "C56",
   "status": "proved",
   "theorems": [
    "C56_cartesian_product",
    "C56_no_arrays"
   ],
   "note": ""
  },
  {
   "property": "C57",
   "status": "proved",
   "theorems": [
    "C57_tile",
    "C57_sim_varpsf",
    "C57_too_few_angles"
   ],
   "note": ""
  },
  {
   "property": "C58",
   "status": "proved",
   "theorems": [
    "C58_distinct_names",
    "C58_last_stored"
   ],
   "note": ""
  },
  {
   "property": "C59",
   "status": "proved",
   "theorems": [
    "C59_block_cleans",
    "C59_block_outcome",
    "C59_clean_twice",
    "C59_crash",
    "C59_lone_map_left"
   ],
   "note": ""
  },
  {
   "property": "C60",
   "status": "proved",
   "theorems": [
    "C60_isolation",
    "C60_reads_last_stored",
    "C60_clean_only_own"
   ],
   "note": ""
  },
  {
   "property": "C61",
   "status": "proved",
   "theorems": [
    "C61_answer",
    "C61_ignored",
    "C61_median_refuted"
   ],
   "note": "The fitter, sigma_clipped_stats and the rendering are functions with no hypothesis; with no stamps numpy's statistics are nan, which is not modelled."
  },
  {
   "property": "C62",
   "status": "proved",
   "theorems": [
    "C62_alignment",
    "C62_reference_shape"
   ],
   "note": ""
  },
  {
   "property": "C63",
   "status": "proved",
   "theorems": [
    "C63_cached",
    "C63_access",
    "C63_failed",
    "C63_mixed",
    "C63_reached",
    "C63_mixed_refuted"
   ],
   "note": "C63_mixed and C63_mixed_refuted: the mixed answer; C63_reached: histories that lead to the hypotheses."
  },
  {
   "property": "C64",
   "status": "proved",
   "theorems": [
    "C64_defaults",
    "C64_assigned"
   ],
   "note": ""
  },
  {
   "property": "C65",
   "status": "proved",
   "theorems": [
    "C65_zero_border",
    "C65_values",
    "C65_small_index"
   ],
   "note": ""
  },
  {
   "property": "C66",
   "status": "proved",
   "theorems": [
    "C66_balanced_chunks"
   ],
   "note": ""
  },
  {
   "property": "C67",
   "status": "proved",
   "theorems": [
    "C67_shared_image_race"
   ],
   "note": ""
  },
  {
   "property": "C68",
   "status": "proved",
   "theorems": [
    "C68_align_needs_sources"
   ],
   "note": ""
  },
  {
   "property": "C69",
   "status": "proved",
   "theorems": [
    "C69_difference_psf_sum"
   ],
   "note": ""
  },
  {
   "property": "C70",
   "status": "proved",
   "theorems": [
    "C70_difference_flux"
   ],
   "note": ""
  },
  {
   "property": "C71",
   "status": "proved",
   "theorems": [
    "C71_significance_scaled"
   ],
   "note": ""
  },
  {
   "property": "C72",
   "status": "proved",
   "theorems": [
    "C72_background_rolled_flat"
   ],
   "note": ""
  },
  {
   "property": "C73",
   "status": "proved",
   "theorems": [
    "C73_outcome",
    "C73_names"
   ],
   "note": ""
  },
  {
   "property": "C74",
   "status": "proved",
   "theorems": [
    "C74_reassign"
   ],
   "note": ""
  },
  {
   "property": "C75",
   "status": "proved",
   "theorems": [
    "C75_explicit_axes",
    "C75_too_few_axes"
   ],
   "note": ""
  },
  {
   "property": "C76",
   "status": "proved",
   "theorems": [
    "C76_seeded_noise_repeats"
   ],
   "note": ""
  },
  {
   "property": "C77",
   "status": "proved",
   "theorems": [
    "C77_airy_nan"
   ],
   "note": ""
  },
  {
   "property": "C78",
   "status": "proved",
   "theorems": [
    "C78_image_background"
   ],
   "note": ""
  },
  {
   "property": "C79",
   "status": "proved",
   "theorems": [
    "C79_astropy_psf_index_error",
    "C79_astropy_psf_normalised"
   ],
   "note": ""
  },
  {
   "property": "C80",
   "status": "proved",
   "theorems": [
    "C80_stamp_formula",
    "C80_in_turn",
    "C80_overlap_refuted",
    "C80_median"
   ],
   "note": ""
  },
  {
   "property": "C81",
   "status": "proved",
   "theorems": [
    "C81_scale_and_level",
    "C81_overlap_refuted"
   ],
   "note": ""
  },
  {
   "property": "C82",
   "status": "proved",
   "theorems": [
    "C82_information_loss"
   ],
   "note": ""
  },
  {
   "property": "C83",
   "status": "proved",
   "theorems": [
    "C83_one_stamp",
    "C83_unit_sum"
   ],
   "note": ""
  },
  {
   "property": "C84",
   "status": "proved",
   "theorems": [
    "C84_retry",
    "C84_shape",
    "C84_retry_refuted"
   ],
   "note": "C84_retry_refuted: a concrete image on which the retry returns one element where the loss asked for needs two."
  },
  {
   "property": "C85",
   "status": "proved",
   "theorems": [
    "C85_start",
    "C85_empty"
   ],
   "note": ""
  },
  {
   "property": "C86",
   "status": "proved",
   "theorems": [
    "C86_zero_points",
    "C86_used_before_refuted"
   ],
   "note": ""
  },
  {
   "property": "C87",
   "status": "proved",
   "theorems": [
    "C87_constant_psf",
    "C87_variable_psf",
    "C87_total",
    "C87_empty_sky_refuted"
   ],
   "note": ""
  },
  {
   "property": "C88",
   "status": "proved",
   "theorems": [
    "C88_real",
    "C88_total",
    "C88_zero_frequency",
    "C88_p_sqnorm",
    "C88_peak",
    "C88_peak_cell",
    "C88_fields_ignored_refuted"
   ],
   "note": ""
  },
  {
   "property": "C89",
   "status": "proved",
   "theorems": [
    "C89_difference"
   ],
   "note": ""
  },
  {
   "property": "C90",
   "status": "proved",
   "theorems": [
    "C90_significance"
   ],
   "note": ""
  },
  {
   "property": "C91",
   "status": "proved",
   "theorems": [
    "C91_point_psf"
   ],
   "note": ""
  },
  {
   "property": "C92",
   "status": "proved",
   "theorems": [
    "C92_zero_points",
    "C92_ratio",
    "C92_fainter_heavier",
    "C92_opposite",
    "C92_true_ratio_refuted",
    "C92_units_refuted",
    "C92_positive_refuted"
   ],
   "note": ""
  },
  {
   "property": "C93",
   "status": "proved",
   "theorems": [
    "C93_construct",
    "C93_history",
    "C93_subtract"
   ],
   "note": ""
  },
  {
   "property": "C94",
   "status": "proved",
   "theorems": [
    "C94_history",
    "C94_subtract"
   ],
   "note": ""
  },
  {
   "property": "C95",
   "status": "proved",
   "theorems": [
    "C95_construct",
    "C95_psf",
    "C95_filter"
   ],
   "note": ""
  },
  {
   "property": "C96",
   "status": "proved",
   "theorems": [
    "C96_search",
    "C96_sizes",
    "C96_enough",
    "C96_history_refuted"
   ],
   "note": ""
  },
  {
   "property": "C97",
   "status": "proved",
   "theorems": [
    "C97_single",
    "C97_not_normalisable",
    "C97_interior",
    "C97_bounds",
    "C97_domain",
    "C97_fields",
    "C97_mirrored",
    "C97_constant",
    "C97_same_psf",
    "C97_edges_refuted"
   ],
   "note": ""
  },
  {
   "property": "C98",
   "status": "proved",
   "theorems": [
    "C98_files",
    "C98_shown",
    "C98_returned",
    "C98_returned_refuted",
    "C98_notebook_refuted",
    "C98_users_figure_refuted"
   ],
   "note": ""
  },
  {
   "property": "C99",
   "status": "proved",
   "theorems": [
    "C99_accepts",
    "C99_shows",
    "C99_errors",
    "C99_imshow"
   ],
   "note": ""
  },
  {
   "property": "C100",
   "status": "proved",
   "theorems": [
    "C100_sky"
   ],
   "note": ""
  },
  {
   "property": "C101",
   "status": "proved",
   "theorems": [
    "C101_white"
   ],
   "note": ""
  },
  {
   "property": "C102",
   "status": "proved",
   "theorems": [
    "C102_value",
    "C102_best",
    "C102_reached"
   ],
   "note": ""
  },
  {
   "property": "C103",
   "status": "proved",
   "theorems": [
    "C103_sky",
    "C103_same"
   ],
   "note": ""
  },
  {
   "property": "C104",
   "status": "proved",
   "theorems": [
    "C104_real",
    "C104_between_cells_refuted"
   ],
   "note": ""
  },
  {
   "property": "C105",
   "status": "proved",
   "theorems": [
    "C105_real",
    "C105_psf"
   ],
   "note": ""
  },
  {
   "property": "C106",
   "status": "proved",
   "theorems": [
    "C106_white"
   ],
   "note": ""
  },
  {
   "property": "C107",
   "status": "proved",
   "theorems": [
    "C107_before",
    "C107_memory",
    "C107_lost",
    "C107_harmless_refuted",
    "C107_large",
    "C107_gauss"
   ],
   "note": ""
  },
  {
   "property": "C108",
   "status": "proved",
   "theorems": [
    "C108_order",
    "C108_least_squares",
    "C108_signs",
    "C108_signs_refuted"
   ],
   "note": ""
  },
  {
   "property": "C109",
   "status": "proved",
   "theorems": [
    "C109_element",
    "C109_sum",
    "C109_both",
    "C109_equal_images_refuted"
   ],
   "note": ""
  },
  {
   "property": "C110",
   "status": "proved",
   "theorems": [
    "C110_best",
    "C110_recovers",
    "C110_background_refuted"
   ],
   "note": ""
  },
  {
   "property": "C111",
   "status": "proved",
   "theorems": [
    "C111_given",
    "C111_subtract"
   ],
   "note": ""
  },
  {
   "property": "C112",
   "status": "proved",
   "theorems": [
    "C112_elements",
    "C112_negative",
    "C112_bright_cell_refuted",
    "C112_answers"
   ],
   "note": ""
  },
  {
   "property": "C113",
   "status": "proved",
   "theorems": [
    "C113_pixels",
    "C113_exact",
    "C113_error",
    "C113_counts_refuted"
   ],
   "note": ""
  },
  {
   "property": "C114",
   "status": "proved",
   "theorems": [
    "C114_flags",
    "C114_minority",
    "C114_majority"
   ],
   "note": ""
  },
  {
   "property": "C115",
   "status": "proved",
   "theorems": [
    "C115_psf",
    "C115_default_width",
    "C115_psf_width_refuted",
    "C115_astropy_psf",
    "C115_airy",
    "C115_airy_width_refuted"
   ],
   "note": ""
  },
  {
   "property": "C116",
   "status": "proved",
   "theorems": [
    "C116_stars",
    "C116_no_room"
   ],
   "note": ""
  },
  {
   "property": "C117",
   "status": "proved",
   "theorems": [
    "C117_masked",
    "C117_sky"
   ],
   "note": ""
  },
  {
   "property": "C118",
   "status": "proved",
   "theorems": [
    "C118_coadd",
    "C118_works"
   ],
   "note": ""
  },
  {
   "property": "C119",
   "status": "proved",
   "theorems": [
    "C119_zero_points",
    "C119_again",
    "C119_first",
    "C119_coadd",
    "C119_catalogue",
    "C119_rejected",
    "C119_coadds"
   ],
   "note": ""
  },
  {
   "property": "C120",
   "status": "proved",
   "theorems": [
    "C120_component",
    "C120_constant",
    "C120_variable",
    "C120_pixels",
    "C120_squared"
   ],
   "note": ""
  },
  {
   "property": "C121",
   "status": "proved",
   "theorems": [
    "C121_psf",
    "C121_filter",
    "C121_pixels",
    "C121_squared",
    "C121_mismatch_refuted"
   ],
   "note": ""
  },
  {
   "property": "C122",
   "status": "proved",
   "theorems": [
    "C122_subtract",
    "C122_stamp",
    "C122_total",
    "C122_unchanged",
    "C122_seeing_refuted",
    "C122_axes_refuted",
    "C122_centre",
    "C122_displaced_refuted"
   ],
   "note": ""
  },
  {
   "property": "C123",
   "status": "proved",
   "theorems": [
    "C123_subtract",
    "C123_rejected",
    "C123_subtracts",
    "C123_first",
    "C123_coadd",
    "C123_coadds",
    "C123_left"
   ],
   "note": ""
  },
  {
   "property": "C124",
   "status": "proved",
   "theorems": [
    "C124_convolution",
    "C124_star",
    "C124_light",
    "C124_place",
    "C124_centred",
    "C124_centre_refuted",
    "C124_light_kept",
    "C124_noise",
    "C124_std",
    "C124_field"
   ],
   "note": ""
  },
  {
   "property": "C125",
   "status": "proved",
   "theorems": [
    "C125_class",
    "C125_grown_refuted",
    "C125_ccd",
    "C125_ccd_mask_refuted",
    "C125_source",
    "C125_aligned",
    "C125_mask_forgotten_refuted",
    "C125_mask",
    "C125_sizes",
    "C125_options",
    "C125_only_pixels",
    "C125_same",
    "C125_same_aligned"
   ],
   "note": ""
  },
  {
   "property": "C126",
   "status": "proved",
   "theorems": [
    "C126_built",
    "C126_not_built",
    "C126_ccd_refuted",
    "C126_frame",
    "C126_mask_forgotten_refuted",
    "C126_only_pixels",
    "C126_aligned",
    "C126_not_looked_refuted",
    "C126_stars",
    "C126_coadd",
    "C126_sizes",
    "C126_nothing"
   ],
   "note": ""
  },
  {
   "property": "C127",
   "status": "proved",
   "theorems": [
    "C127_path",
    "C127_interrupted",
    "C127_images",
    "C127_retry",
    "C127_window",
    "C127_stuck",
    "C127_window_refuted",
    "C127_old_psf",
    "C127_mixed",
    "C127_loss_refuted"
   ],
   "note": ""
  },
  {
   "property": "C128",
   "status": "proved",
   "theorems": [
    "C128_matching",
    "C128_subtract",
    "C128_attempts",
    "C128_coadd",
    "C128_coadds",
    "C128_finished",
    "C128_anywhere"
   ],
   "note": ""
  },
  {
   "property": "C129",
   "status": "proved",
   "theorems": [
    "C129_dest",
    "C129_distinct",
    "C129_files",
    "C129_history",
    "C129_order",
    "C129_overwritten",
    "C129_reference",
    "C129_registered",
    "C129_missing",
    "C129_unmoved",
    "C129_new_refuted",
    "C129_loaded"
   ],
   "note": ""
  },
  {
   "property": "C130",
   "status": "proved",
   "theorems": [
    "C130_subtract",
    "C130_coadd",
    "C130_few",
    "C130_subtract_done",
    "C130_coadd_done",
    "C130_anywhere"
   ],
   "note": ""
  },
  {
   "property": "C131",
   "status": "proved",
   "theorems": [
    "C131_calls",
    "C131_shown",
    "C131_silent"
   ],
   "note": ""
  },
  {
   "property": "C132",
   "status": "proved",
   "theorems": [
    "C132_left",
    "C132_untouched",
    "C132_in_turn",
    "C132_nan",
    "C132_unchanged_refuted"
   ],
   "note": ""
  },
  {
   "property": "C133",
   "status": "proved",
   "theorems": [
    "C133_left",
    "C133_mask",
    "C133_sky",
    "C133_units",
    "C133_uses"
   ],
   "note": ""
  },
  {
   "property": "C134",
   "status": "proved",
   "theorems": [
    "C134_first_read",
    "C134_stale",
    "C134_nan",
    "C134_no_matter_when_refuted"
   ],
   "note": ""
  },
  {
   "property": "C135",
   "status": "proved",
   "theorems": [
    "C135_mask",
    "C135_sky",
    "C135_coadd",
    "C135_works"
   ],
   "note": ""
  },
  {
   "property": "C136",
   "status": "proved",
   "theorems": [
    "C136_history",
    "C136_psf",
    "C136_again",
    "C136_nan"
   ],
   "note": ""
  },
  {
   "property": "C137",
   "status": "proved",
   "theorems": [
    "C137_far",
    "C137_idle"
   ],
   "note": ""
  },
  {
   "property": "C138",
   "status": "proved",
   "theorems": [
    "C138_retries",
    "C138_accesses"
   ],
   "note": ""
  },
  {
   "property": "C139",
   "status": "proved",
   "theorems": [
    "C139_history",
    "C139_psf",
    "C139_pixels",
    "C139_far"
   ],
   "note": ""
  },
  {
   "property": "C140",
   "status": "proved",
   "theorems": [
    "C140_uses",
    "C140_history"
   ],
   "note": ""
  },
  {
   "property": "C141",
   "status": "proved",
   "theorems": [
    "C141_coadd",
    "C141_works"
   ],
   "note": ""
  },
  {
   "property": "C142",
   "status": "proved",
   "theorems": [
    "C142_psf",
    "C142_subtract",
    "C142_calls"
   ],
   "note": ""
  }
 ]
}