{
 "claims": [
  {
   "property": "C01",
   "status": "proved",
   "theorems": [
    "C01_motion_is_rigid",
    "C01_rotate_isometry"
   ],
   "note": ""
  },
  {
   "property": "C02",
   "status": "proved",
   "theorems": [
    "C02_motion_semantics",
    "C02_axis_points_translate",
    "C02_rotate_semantics",
    "C02_rotate_additive"
   ],
   "note": ""
  },
  {
   "property": "C03",
   "status": "proved",
   "theorems": [
    "C03_inverse_constructs",
    "C03_inverse_rotate_undoes",
    "C03_inverse_undoes_iff",
    "C03_inverse_residual",
    "C03_inverse_refuted"
   ],
   "note": ""
  },
  {
   "property": "C04",
   "status": "proved",
   "theorems": [
    "C04_constructor_guard",
    "C04_length_defect",
    "C04_accepted_not_rigid_refuted"
   ],
   "note": ""
  },
  {
   "property": "C05",
   "status": "proved",
   "theorems": [
    "C05_batch_scalar_time",
    "C05_batch_vector_time",
    "C05_batch_elements",
    "C05_elements_scalar_time_raises",
    "C05_single_point_times",
    "C05_rotate_batch"
   ],
   "note": ""
  },
  {
   "property": "C06",
   "status": "proved",
   "theorems": [
    "C06_translate_guard_and_vector",
    "C06_translate_columns",
    "C06_translate_rows",
    "C06_translate_rows_refuted"
   ],
   "note": ""
  },
  {
   "property": "C07",
   "status": "proved",
   "theorems": [
    "C07_laue_sound"
   ],
   "note": ""
  },
  {
   "property": "C08",
   "status": "proved",
   "theorems": [
    "C08_laue_complete",
    "C08_laue_complete_refuted",
    "C08_blind_spot",
    "C08_double_report_refuted"
   ],
   "note": ""
  },
  {
   "property": "C09",
   "status": "proved",
   "theorems": [
    "C09_laue_indices",
    "C09_laue_order",
    "C09_at_most_two"
   ],
   "note": ""
  },
  {
   "property": "C10",
   "status": "proved",
   "theorems": [
    "C10_peak_contents"
   ],
   "note": ""
  },
  {
   "property": "C11",
   "status": "proved",
   "theorems": [
    "C11_bragg_angle",
    "C11_bragg"
   ],
   "note": ""
  },
  {
   "property": "C12",
   "status": "proved",
   "theorems": [
    "C12_table_shape",
    "C12_complete"
   ],
   "note": ""
  },
  {
   "property": "C13",
   "status": "proved",
   "theorems": [
    "C13_events",
    "C13_outcome",
    "C13_no_phase_map",
    "C13_always_returns_refuted"
   ],
   "note": ""
  },
  {
   "property": "C14",
   "status": "proved",
   "theorems": [
    "C14_material_state",
    "C14_reciprocal_lengths"
   ],
   "note": ""
  },
  {
   "property": "C15",
   "status": "proved",
   "theorems": [
    "C15_moved_rows",
    "C15_moved_complete",
    "C15_source_offset",
    "C15_source_refuted"
   ],
   "note": ""
  },
  {
   "property": "C16",
   "status": "proved",
   "theorems": [
    "C16_dict_follows_transform",
    "C16_constructor_copies",
    "C16_snapshot_refuted"
   ],
   "note": ""
  },
  {
   "property": "C17",
   "status": "proved",
   "theorems": [
    "C17_no_detector",
    "C17_detector_max_ignored",
    "C17_detector_limits",
    "C17_cone_source",
    "C17_cone_source_lit",
    "C17_undefined_cone",
    "C17_beyond_ninety"
   ],
   "note": ""
  },
  {
   "property": "C18",
   "status": "proved",
   "theorems": [
    "C18_history_independent"
   ],
   "note": ""
  },
  {
   "property": "C19",
   "status": "proved",
   "theorems": [
    "C19_matrix_argument",
    "C19_constructor",
    "C19_lattice"
   ],
   "note": ""
  },
  {
   "property": "C20",
   "status": "proved",
   "theorems": [
    "C20_metric",
    "C20_plane_spacing",
    "C20_round_trip",
    "C20_zero_strain"
   ],
   "note": ""
  },
  {
   "property": "C21",
   "status": "proved",
   "theorems": [
    "C21_singular_B",
    "C21_outcomes",
    "C21_documented_exception_refuted",
    "C21_upper_triangle_ignored"
   ],
   "note": ""
  },
  {
   "property": "C22",
   "status": "proved",
   "theorems": [
    "C22_beam_normalised",
    "C22_beam_accepts_iff"
   ],
   "note": ""
  },
  {
   "property": "C23",
   "status": "proved",
   "theorems": [
    "C23_contains_strict",
    "C23_boundary_outside",
    "C23_inside_convex",
    "C23_batch_pointwise",
    "C23_rounded_hull",
    "C23_rows_sorted"
   ],
   "note": ""
  },
  {
   "property": "C24",
   "status": "proved",
   "theorems": [
    "C24_roundtrip",
    "C24_roundtrip_other_hull",
    "C24_negative_wavelength_reverses"
   ],
   "note": ""
  },
  {
   "property": "C25",
   "status": "proved",
   "theorems": [
    "C25_feasible_point_checked",
    "C25_interior_point_strict",
    "C25_whole_body_iff",
    "C25_no_intersection_means",
    "C25_interior_point_refuted",
    "C25_vertex_repair",
    "C25_edge_raises"
   ],
   "note": ""
  },
  {
   "property": "C26",
   "status": "proved",
   "theorems": [
    "C26_covered_iff",
    "C26_intervals_sound",
    "C26_tail_refuted"
   ],
   "note": ""
  },
  {
   "property": "C27",
   "status": "proved",
   "theorems": [
    "C27_conservative",
    "C27_sampling",
    "C27_conservative_refuted",
    "C27_documented_layout_raises",
    "C27_documented_layout_transposed",
    "C27_step_bound",
    "C27_documented_step_refuted"
   ],
   "note": ""
  },
  {
   "property": "C28",
   "status": "proved",
   "theorems": [
    "C28_round_trip",
    "C28_coordinates_exact",
    "C28_backward_nan",
    "C28_parallel_not_finite",
    "C28_collinear_not_finite",
    "C28_skew_refuted"
   ],
   "note": ""
  },
  {
   "property": "C29",
   "status": "proved",
   "theorems": [
    "C29_contains_iff",
    "C29_recorded_rows_hit",
    "C29_missed_never_recorded",
    "C29_skew_refuted"
   ],
   "note": ""
  },
  {
   "property": "C30",
   "status": "proved",
   "theorems": [
    "C30_grid_shape",
    "C30_pixel_position",
    "C30_requested_pixels",
    "C30_requested_pixels_rounding_refuted",
    "C30_one_of_two_required",
    "C30_other_failures_kind",
    "C30_sizes_positive",
    "C30_sizes_accepted_iff",
    "C30_counts_accepted_iff",
    "C30_requested_pixels_rounding",
    "C30_power_of_two_rounding",
    "C30_pixel_size_rounding",
    "C30_pixel_size_rounding_refuted"
   ],
   "note": ""
  },
  {
   "property": "C31",
   "status": "proved",
   "theorems": [
    "C31_frame_is_time_bin",
    "C31_bin_unique",
    "C31_monotone",
    "C31_recorded_frame",
    "C31_rounded_bin",
    "C31_rounded_exact",
    "C31_rounded_monotone",
    "C31_rounded_refuted"
   ],
   "note": ""
  },
  {
   "property": "C32",
   "status": "proved",
   "theorems": [
    "C32_rows_are_the_visible_ones",
    "C32_intensity_product",
    "C32_dictionary_extended",
    "C32_no_signed_zero",
    "C32_never_fails",
    "C32_diffract_tables_fresh"
   ],
   "note": ""
  },
  {
   "property": "C33",
   "status": "proved",
   "theorems": [
    "C33_reprojection_uses_stale_coordinates",
    "C33_names_shadowed",
    "C33_second_detector_refuted"
   ],
   "note": ""
  },
  {
   "property": "C34",
   "status": "proved",
   "theorems": [
    "C34_half_of_largest_corner_angle",
    "C34_cone_covers_detector",
    "C34_backscatter_refuted",
    "C34_other_source_refuted"
   ],
   "note": ""
  },
  {
   "property": "C35",
   "status": "proved",
   "theorems": [
    "C35_box_inside_complete_pixels",
    "C35_box_covers_projection",
    "C35_missing_vertices_ignored",
    "C35_nothing_projected",
    "C35_partial_row_refuted"
   ],
   "note": ""
  },
  {
   "property": "C36",
   "status": "proved",
   "theorems": [
    "C36_shape",
    "C36_dictionary",
    "C36_unknown_method",
    "C36_nothing_visible",
    "C36_empty_table"
   ],
   "note": ""
  },
  {
   "property": "C37",
   "status": "proved",
   "theorems": [
    "C37_auto_is_sum",
    "C37_auto_defined",
    "C37_exactly_one_class",
    "C37_double_class",
    "C37_default_limits",
    "C37_partition_refuted"
   ],
   "note": ""
  },
  {
   "property": "C38",
   "status": "proved",
   "theorems": [
    "C38_batch_size_irrelevant",
    "C38_batch_size_range",
    "C38_batch_size_never_adapts",
    "C38_memory_irrelevant"
   ],
   "note": ""
  },
  {
   "property": "C39",
   "status": "proved",
   "theorems": [
    "C39_pixel_is_sum_of_spots",
    "C39_spot_bounds",
    "C39_strength_nonneg",
    "C39_frame_total_bounded",
    "C39_superposition",
    "C39_order_irrelevant",
    "C39_micro_never_fails"
   ],
   "note": ""
  },
  {
   "property": "C40",
   "status": "proved",
   "theorems": [
    "C40_weak_peaks_vanish",
    "C40_not_linear_refuted"
   ],
   "note": ""
  },
  {
   "property": "C41",
   "status": "proved",
   "theorems": [
    "C41_terminates",
    "C41_batches_fit",
    "C41_no_memory"
   ],
   "note": ""
  },
  {
   "property": "C42",
   "status": "proved",
   "theorems": [
    "C42_equal_sizes_memory_irrelevant",
    "C42_memory_changes_image_refuted"
   ],
   "note": ""
  },
  {
   "property": "C43",
   "status": "proved",
   "theorems": [
    "C43_least_radius",
    "C43_cropped_energy",
    "C43_single_entry"
   ],
   "note": ""
  },
  {
   "property": "C44",
   "status": "proved",
   "theorems": [
    "C44_radius",
    "C44_sampling_offset",
    "C44_integer_radius_symmetric",
    "C44_centred_refuted"
   ],
   "note": ""
  },
  {
   "property": "C45",
   "status": "proved",
   "theorems": [
    "C45_bilinear_conserves",
    "C45_border_loses_only",
    "C45_kernel_total"
   ],
   "note": ""
  },
  {
   "property": "C46",
   "status": "proved",
   "theorems": [
    "C46_radius",
    "C46_built_has_kernel",
    "C46_kernel",
    "C46_gaussian",
    "C46_zero_sigma_nan",
    "C46_zero_sigma_nano_nan",
    "C46_zero_sigma_macro_nan",
    "C46_convolution_conserves",
    "C46_convolution_loses_only",
    "C46_blur"
   ],
   "note": ""
  },
  {
   "property": "C47",
   "status": "proved",
   "theorems": [
    "C47_macro_frame_total",
    "C47_missed_sliver_nan",
    "C47_same_total_refuted"
   ],
   "note": ""
  },
  {
   "property": "C48",
   "status": "proved",
   "theorems": [
    "C48_chord_length",
    "C48_miss_is_zero",
    "C48_nonnegative",
    "C48_start_point_irrelevant",
    "C48_parallel_faces_ignored",
    "C48_parallel_face_refuted",
    "C48_hull_body",
    "C48_hull_length"
   ],
   "note": ""
  },
  {
   "property": "C49",
   "status": "proved",
   "theorems": [
    "C49_incident_angle",
    "C49_corner_order"
   ],
   "note": ""
  },
  {
   "property": "C50",
   "status": "proved",
   "theorems": [
    "C50_normals_outward",
    "C50_element_behind_faces"
   ],
   "note": ""
  },
  {
   "property": "C51",
   "status": "proved",
   "theorems": [
    "C51_sphere_contains_element",
    "C51_build_succeeds_iff",
    "C51_flat_element_raises",
    "C51_sphere_minimal_refuted",
    "C51_edge_ball_near_minimal",
    "C51_radius_bounds"
   ],
   "note": ""
  },
  {
   "property": "C52",
   "status": "proved",
   "theorems": [
    "C52_volume_rigid_invariant",
    "C52_volume_meaning",
    "C52_node_order",
    "C52_evolumes_nonneg_refuted",
    "C52_mesh_attributes",
    "C52_mesh_centroid",
    "C52_centre_of_mass_refuted"
   ],
   "note": ""
  },
  {
   "property": "C53",
   "status": "proved",
   "theorems": [
    "C53_history_consistent",
    "C53_update_then_translate",
    "C53_any_history_refuted",
    "C53_rebuild_equals_incremental",
    "C53_operations"
   ],
   "note": ""
  },
  {
   "property": "C54",
   "status": "proved",
   "theorems": [
    "C54_faces",
    "C54_centroids"
   ],
   "note": ""
  },
  {
   "property": "C55",
   "status": "proved",
   "theorems": [
    "C55_types",
    "C55_missing_key",
    "C55_other_keys",
    "C55_detector",
    "C55_direct_beam",
    "C55_beam",
    "C55_motion",
    "C55_succeeds"
   ],
   "note": ""
  },
  {
   "property": "C56",
   "status": "proved",
   "theorems": [
    "C56_elements",
    "C56_volumes",
    "C56_spare_nodes",
    "C56_succeeds"
   ],
   "note": ""
  },
  {
   "property": "C57",
   "status": "proved",
   "theorems": [
    "C57_step",
    "C57_too_coarse",
    "C57_bins",
    "C57_volumes",
    "C57_uniform_accepted",
    "C57_neighbours",
    "C57_separation_refuted"
   ],
   "note": ""
  },
  {
   "property": "C58",
   "status": "proved",
   "theorems": [
    "C58_unit",
    "C58_rotations",
    "C58_accepted_means",
    "C58_accepted",
    "C58_from_bin",
    "C58_covers"
   ],
   "note": ""
  },
  {
   "property": "C59",
   "status": "proved",
   "theorems": [
    "C59_polarization_range",
    "C59_polarization_direction",
    "C59_lorentz_cases",
    "C59_lorentz_speed",
    "C59_lorentz_batch"
   ],
   "note": ""
  },
  {
   "property": "C60",
   "status": "proved",
   "theorems": [
    "C60_size_is_equivalent_diameter",
    "C60_scherrer_positive",
    "C60_scherrer_formula",
    "C60_scherrer_decreases_with_volume",
    "C60_scherrer_increases_with_angle",
    "C60_scherrer_scaling",
    "C60_zero_volume"
   ],
   "note": ""
  },
  {
   "property": "C61",
   "status": "proved",
   "theorems": [
    "C61_formula",
    "C61_batching",
    "C61_unknown_type",
    "C61_shape",
    "C61_friedel",
    "C61_equivalent_reflections",
    "C61_absences",
    "C61_sintl",
    "C61_friedel_dispersion_refuted"
   ],
   "note": ""
  },
  {
   "property": "C62",
   "status": "proved",
   "theorems": [
    "C62_selects",
    "C62_rejects",
    "C62_last_call",
    "C62_no_call",
    "C62_consistent"
   ],
   "note": ""
  },
  {
   "property": "C63",
   "status": "proved",
   "theorems": [
    "C63_reload_identity",
    "C63_reload_default",
    "C63_names",
    "C63_save_load_motion",
    "C63_save_load_detector",
    "C63_save_load_beam",
    "C63_save_load_polycrystal",
    "C63_load_refuses",
    "C63_load_missing",
    "C63_history",
    "C63_kinds_apart",
    "C63_save_load_mesh"
   ],
   "note": ""
  },
  {
   "property": "C64",
   "status": "proved",
   "theorems": [
    "C64_beside",
    "C64_truncated_refuted",
    "C64_writes",
    "C64_overwrites_refuted",
    "C64_exportable"
   ],
   "note": ""
  },
  {
   "property": "C65",
   "status": "proved",
   "theorems": [
    "C65_tensor_of_vector",
    "C65_vector_of_tensor",
    "C65_wrong_length",
    "C65_only_symmetric_refuted"
   ],
   "note": ""
  },
  {
   "property": "C66",
   "status": "proved",
   "theorems": [
    "C66_entries",
    "C66_total",
    "C66_conserved_refuted"
   ],
   "note": ""
  },
  {
   "property": "C67",
   "status": "proved",
   "theorems": [
    "C67_other_loggers",
    "C67_active_inside",
    "C67_off_afterwards",
    "C67_not_verbose",
    "C67_nested_silences",
    "C67_default_silent"
   ],
   "note": ""
  },
  {
   "property": "C68",
   "status": "proved",
   "theorems": [
    "C68_closed",
    "C68_nan",
    "C68_order"
   ],
   "note": ""
  },
  {
   "property": "C69",
   "status": "proved",
   "theorems": [
    "C69_mutated_refuted",
    "C69_second_save_refuted"
   ],
   "note": ""
  },
  {
   "property": "C70",
   "status": "proved",
   "theorems": [
    "C70_unmapped_elements",
    "C70_map_too_long"
   ],
   "note": ""
  },
  {
   "property": "C71",
   "status": "proved",
   "theorems": [
    "C71_samples_land_in_their_pixel",
    "C71_border_crash_refuted",
    "C71_wraps_around_refuted"
   ],
   "note": ""
  },
  {
   "property": "C72",
   "status": "proved",
   "theorems": [
    "C72_airy_shape",
    "C72_distance",
    "C72_distance_from_origin",
    "C72_narrow_discs",
    "C72_turned_away_refuted",
    "C72_airy_batch"
   ],
   "note": ""
  },
  {
   "property": "C73",
   "status": "proved",
   "theorems": [
    "C73_full_weight",
    "C73_visible_share_refuted"
   ],
   "note": ""
  },
  {
   "property": "C74",
   "status": "proved",
   "theorems": [
    "C74_total_bounded",
    "C74_interior_total",
    "C74_small_discs_finite"
   ],
   "note": ""
  },
  {
   "property": "C75",
   "status": "proved",
   "theorems": [
    "C75_equidistant",
    "C75_unique"
   ],
   "note": ""
  },
  {
   "property": "C76",
   "status": "proved",
   "theorems": [
    "C76_watertight",
    "C76_on_cylinder",
    "C76_outward_refuted",
    "C76_sample",
    "C76_sides",
    "C76_succeeds",
    "C76_spacing"
   ],
   "note": ""
  },
  {
   "property": "C77",
   "status": "proved",
   "theorems": [
    "C77_interrupted",
    "C77_interrupted_single"
   ],
   "note": ""
  },
  {
   "property": "C78",
   "status": "proved",
   "theorems": [
    "C78_fields",
    "C78_sample_frame",
    "C78_misorientation"
   ],
   "note": ""
  },
  {
   "property": "C79",
   "status": "proved",
   "theorems": [
    "C79_thickness_profile",
    "C79_unblurred"
   ],
   "note": ""
  },
  {
   "property": "C80",
   "status": "proved",
   "theorems": [
    "C80_grid_only",
    "C80_surface_close",
    "C80_mesh_in_cube",
    "C80_errors",
    "C80_zero_circumradius",
    "C80_mesher_fails",
    "C80_no_sign_change",
    "C80_small_body_missed",
    "C80_bounding_radius_refuted",
    "C80_circumradius_refuted"
   ],
   "note": ""
  },
  {
   "property": "C81",
   "status": "proved",
   "theorems": [
    "C81_motion_built",
    "C81_motion_isolated",
    "C81_motion_follows",
    "C81_motion_isolated_refuted",
    "C81_axis_write",
    "C81_detector_built",
    "C81_detector_isolated",
    "C81_detector_follows",
    "C81_detector_isolated_refuted",
    "C81_mesh_isolated"
   ],
   "note": ""
  },
  {
   "property": "C82",
   "status": "proved",
   "theorems": [
    "C82_in_hull",
    "C82_by_volume",
    "C82_reachable",
    "C82_flat_raises"
   ],
   "note": ""
  },
  {
   "property": "C83",
   "status": "proved",
   "theorems": [
    "C83_ray_point",
    "C83_pixel_coordinates",
    "C83_same_hits",
    "C83_far_edge_refuted",
    "C83_beyond_edge_refuted",
    "C83_grazing_refuted",
    "C83_path_length",
    "C83_no_hull",
    "C83_sin_theta"
   ],
   "note": ""
  },
  {
   "property": "C84",
   "status": "proved",
   "theorems": [
    "C84_image_is_sum_of_reflections",
    "C84_light_has_a_cause",
    "C84_every_reflection_shows"
   ],
   "note": ""
  },
  {
   "property": "C85",
   "status": "proved",
   "theorems": [
    "C85_radius_note",
    "C85_radius_only_nano",
    "C85_auto_radius",
    "C85_numbers",
    "C85_quiet",
    "C85_same_result",
    "C85_micro_progress",
    "C85_nano_progress",
    "C85_macro_progress",
    "C85_auto_progress",
    "C85_note",
    "C85_resolve",
    "C85_warning"
   ],
   "note": ""
  },
  {
   "property": "C86",
   "status": "proved",
   "theorems": [
    "C86_device",
    "C86_range",
    "C86_figures",
    "C86_unknown",
    "C86_raises_iff",
    "C86_zero_still_renders",
    "C86_listing",
    "C86_entries",
    "C86_cpu_total",
    "C86_cpu_total_bound",
    "C86_cpu_total_refuted",
    "C86_gpu_block"
   ],
   "note": ""
  },
  {
   "property": "C87",
   "status": "proved",
   "theorems": [
    "C87_readable_iff",
    "C87_first_block",
    "C87_no_block",
    "C87_no_interference",
    "C87_material_kept",
    "C87_same_as_unshared",
    "C87_as_if_alone",
    "C87_up_to_date",
    "C87_half_updated",
    "C87_structure_column",
    "C87_one_per_reflection",
    "C87_attributes_consistent_refuted"
   ],
   "note": ""
  },
  {
   "property": "C88",
   "status": "proved",
   "theorems": [
    "C88_frames_are_steps",
    "C88_edge_shown_twice",
    "C88_blind_spot"
   ],
   "note": ""
  },
  {
   "property": "C89",
   "status": "proved",
   "theorems": [
    "C89_same_table",
    "C89_same_picture",
    "C89_same_nano_picture",
    "C89_nano_shift_refuted",
    "C89_transformed_sample",
    "C89_built_sample",
    "C89_built_motion",
    "C89_built_detector",
    "C89_built_beam",
    "C89_moved_faces"
   ],
   "note": ""
  },
  {
   "property": "C90",
   "status": "proved",
   "theorems": [
    "C90_joint_table",
    "C90_joint_picture",
    "C90_built_together",
    "C90_stays_joined",
    "C90_parts_return_refuted"
   ],
   "note": ""
  },
  {
   "property": "C91",
   "status": "proved",
   "theorems": [
    "C91_same_table",
    "C91_same_refusal",
    "C91_stays_renumbered",
    "C91_same_picture",
    "C91_built_renumbered"
   ],
   "note": ""
  },
  {
   "property": "C92",
   "status": "proved",
   "theorems": [
    "C92_same_reflections",
    "C92_same_refusal",
    "C92_frames_reversed",
    "C92_edge_changes_frame",
    "C92_blind_spot"
   ],
   "note": ""
  },
  {
   "property": "C93",
   "status": "proved",
   "theorems": [
    "C93_same_table",
    "C93_same_picture",
    "C93_stays_same",
    "C93_symmetry_equivalent",
    "C93_strained_refuted"
   ],
   "note": ""
  },
  {
   "property": "C94",
   "status": "proved",
   "theorems": [
    "C94_built_sample",
    "C94_built_motion",
    "C94_built_detector",
    "C94_built_beam",
    "C94_scaled_faces",
    "C94_transform",
    "C94_same_table",
    "C94_same_hits",
    "C94_picture",
    "C94_nano_refuted"
   ],
   "note": ""
  },
  {
   "property": "C95",
   "status": "proved",
   "theorems": [
    "C95_same_failures",
    "C95_narrowed_table",
    "C95_cut_count",
    "C95_picture_monotone",
    "C95_picture_split",
    "C95_new_vertices",
    "C95_cut_in_two_refuted"
   ],
   "note": ""
  },
  {
   "property": "C96",
   "status": "proved",
   "theorems": [
    "C96_same_reflections",
    "C96_picture",
    "C96_interior",
    "C96_part_of_panel",
    "C96_built",
    "C96_odd_offset_refuted"
   ],
   "note": ""
  },
  {
   "property": "C97",
   "status": "proved",
   "theorems": [
    "C97_picture_columns"
   ],
   "note": ""
  },
  {
   "property": "C98",
   "status": "proved",
   "theorems": [
    "C98_lengths",
    "C98_reversed",
    "C98_hull_order",
    "C98_polarization_column",
    "C98_opposite_rows",
    "C98_pictures"
   ],
   "note": ""
  },
  {
   "property": "C99",
   "status": "proved",
   "theorems": [
    "C99_mate",
    "C99_mate_back",
    "C99_tilted"
   ],
   "note": ""
  },
  {
   "property": "C100",
   "status": "proved",
   "theorems": [
    "C100_only_runtime_error",
    "C100_whole_radii",
    "C100_equal_radii",
    "C100_one_by_one",
    "C100_mixed_radii_refuted"
   ],
   "note": ""
  },
  {
   "property": "C101",
   "status": "proved",
   "theorems": [
    "C101_superposition",
    "C101_same_picture",
    "C101_joined_samples",
    "C101_renumbered_samples",
    "C101_mixed_discs_refuted",
    "C101_width_suffices",
    "C101_peaks_have_discs"
   ],
   "note": ""
  },
  {
   "property": "C102",
   "status": "proved",
   "theorems": [
    "C102_motion_volume",
    "C102_mesh_solid",
    "C102_sample_solid",
    "C102_rows_positive",
    "C102_strength_positive",
    "C102_discs",
    "C102_nano_succeeds"
   ],
   "note": ""
  },
  {
   "property": "C103",
   "status": "proved",
   "theorems": [
    "C103_linear",
    "C103_auto",
    "C103_volumes_nano",
    "C103_volumes_macro",
    "C103_micro_near"
   ],
   "note": ""
  },
  {
   "property": "C104",
   "status": "proved",
   "theorems": [
    "C104_displacement",
    "C104_same_failures",
    "C104_same_reflections",
    "C104_fully_lit",
    "C104_symmetric",
    "C104_built",
    "C104_spots"
   ],
   "note": ""
  },
  {
   "property": "C105",
   "status": "proved",
   "theorems": [
    "C105_transposed_table",
    "C105_turned_table",
    "C105_transposed_micro",
    "C105_turned_micro",
    "C105_not_the_flip",
    "C105_transposed_macro",
    "C105_macro_same_failures",
    "C105_built_transposed",
    "C105_built_turned"
   ],
   "note": ""
  },
  {
   "property": "C106",
   "status": "proved",
   "theorems": [
    "C106_conserved",
    "C106_each_part",
    "C106_each_parent",
    "C106_broader",
    "C106_twice",
    "C106_cut",
    "C106_built_refined"
   ],
   "note": ""
  },
  {
   "property": "C107",
   "status": "proved",
   "theorems": [
    "C107_gauge",
    "C107_shift",
    "C107_uniform",
    "C107_determined"
   ],
   "note": ""
  },
  {
   "property": "C108",
   "status": "proved",
   "theorems": [
    "C108_twice",
    "C108_never",
    "C108_lost",
    "C108_at_most_two"
   ],
   "note": ""
  }
 ]
}