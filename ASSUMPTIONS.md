# What Print Assumptions lists

Generated by `tools/gen_assumptions.py`. 534 theorems. Every axiom is from the Coq standard library.

## Closed under the global context (no axioms)

`C19_matrix_argument` `C30_requested_pixels_rounding_refuted` `C62_consistent` `C62_last_call` `C62_no_call` `C62_rejects` `C62_selects` `C63_kinds_apart` `C63_names` `C63_save_load_detector` `C63_save_load_motion` `C64_beside` `C64_truncated_refuted` `C65_tensor_of_vector` `C65_vector_of_tensor` `C65_wrong_length` `C67_active_inside` `C67_default_silent` `C67_nested_silences` `C67_not_verbose` `C67_off_afterwards` `C67_other_loggers` `C69_mutated_refuted` `C69_second_save_refuted` `C85_numbers` `C85_resolve`

## `ClassicalDedekindReals.sig_forall_dec`, `FunctionalExtensionality.functional_extensionality_dep`

`C06_translate_columns` `C06_translate_guard_and_vector` `C06_translate_rows` `C106_cut` `C17_cone_source` `C17_cone_source_lit` `C21_singular_B` `C23_batch_pointwise` `C23_boundary_outside` `C23_contains_strict` `C23_inside_convex` `C25_edge_raises` `C25_feasible_point_checked` `C25_interior_point_strict` `C25_no_intersection_means` `C25_whole_body_iff` `C26_covered_iff` `C26_intervals_sound` `C26_tail_refuted` `C29_contains_iff` `C31_bin_unique` `C31_frame_is_time_bin` `C31_monotone` `C31_rounded_refuted` `C37_default_limits` `C37_double_class` `C37_exactly_one_class` `C38_batch_size_never_adapts` `C38_batch_size_range` `C41_terminates` `C43_cropped_energy` `C43_least_radius` `C43_single_entry` `C45_bilinear_conserves` `C45_border_loses_only` `C45_kernel_total` `C48_chord_length` `C48_miss_is_zero` `C48_nonnegative` `C48_parallel_faces_ignored` `C48_start_point_irrelevant` `C52_node_order` `C52_volume_meaning` `C65_only_symmetric_refuted` `C68_closed` `C68_nan` `C68_order` `C82_by_volume` `C82_flat_raises` `C82_in_hull` `C82_reachable` `C83_no_hull` `C86_cpu_total` `C86_cpu_total_bound` `C86_cpu_total_refuted` `C86_device` `C86_entries` `C86_figures` `C86_gpu_block` `C86_listing` `C86_raises_iff` `C86_range` `C86_unknown` `C89_moved_faces` `C94_scaled_faces` `C95_new_vertices`

## `ClassicalDedekindReals.sig_forall_dec`, `ClassicalDedekindReals.sig_not_dec`, `FunctionalExtensionality.functional_extensionality_dep`

`C01_motion_is_rigid` `C01_rotate_isometry` `C02_axis_points_translate` `C02_motion_semantics` `C02_rotate_additive` `C02_rotate_semantics` `C03_inverse_constructs` `C03_inverse_refuted` `C03_inverse_residual` `C03_inverse_rotate_undoes` `C03_inverse_undoes_iff` `C04_accepted_not_rigid_refuted` `C04_constructor_guard` `C04_length_defect` `C05_batch_elements` `C05_batch_scalar_time` `C05_batch_vector_time` `C05_elements_scalar_time_raises` `C05_rotate_batch` `C05_single_point_times` `C102_mesh_solid` `C102_motion_volume` `C104_built` `C104_displacement` `C104_symmetric` `C105_built_transposed` `C105_built_turned` `C106_built_refined` `C14_material_state` `C14_reciprocal_lengths` `C15_source_offset` `C15_source_refuted` `C16_constructor_copies` `C19_constructor` `C19_lattice` `C20_metric` `C20_plane_spacing` `C20_round_trip` `C20_zero_strain` `C21_upper_triangle_ignored` `C22_beam_accepts_iff` `C22_beam_normalised` `C23_rounded_hull` `C23_rows_sorted` `C24_negative_wavelength_reverses` `C24_roundtrip` `C24_roundtrip_other_hull` `C25_interior_point_refuted` `C25_vertex_repair` `C27_conservative` `C27_conservative_refuted` `C27_documented_layout_raises` `C27_documented_layout_transposed` `C27_documented_step_refuted` `C27_sampling` `C27_step_bound` `C30_counts_accepted_iff` `C30_grid_shape` `C30_one_of_two_required` `C30_other_failures_kind` `C30_pixel_position` `C30_requested_pixels` `C30_sizes_accepted_iff` `C30_sizes_positive` `C38_batch_size_irrelevant` `C39_spot_bounds` `C41_batches_fit` `C41_no_memory` `C44_integer_radius_symmetric` `C44_radius` `C44_sampling_offset` `C46_blur` `C46_built_has_kernel` `C46_convolution_conserves` `C46_convolution_loses_only` `C46_gaussian` `C46_kernel` `C46_radius` `C46_zero_sigma_nan` `C48_hull_body` `C48_hull_length` `C48_parallel_face_refuted` `C50_element_behind_faces` `C50_normals_outward` `C51_build_succeeds_iff` `C51_edge_ball_near_minimal` `C51_flat_element_raises` `C51_radius_bounds` `C51_sphere_contains_element` `C51_sphere_minimal_refuted` `C52_centre_of_mass_refuted` `C52_evolumes_nonneg_refuted` `C52_mesh_attributes` `C52_mesh_centroid` `C52_volume_rigid_invariant` `C53_any_history_refuted` `C53_history_consistent` `C53_operations` `C53_rebuild_equals_incremental` `C53_update_then_translate` `C54_centroids` `C54_faces` `C55_beam` `C55_missing_key` `C55_motion` `C55_other_keys` `C55_succeeds` `C55_types` `C56_elements` `C56_spare_nodes` `C56_succeeds` `C56_volumes` `C57_step` `C57_too_coarse` `C58_rotations` `C58_unit` `C59_polarization_direction` `C59_polarization_range` `C61_absences` `C61_batching` `C61_equivalent_reflections` `C61_formula` `C61_friedel` `C61_friedel_dispersion_refuted` `C61_shape` `C61_sintl` `C61_unknown_type` `C63_load_missing` `C63_load_refuses` `C63_save_load_beam` `C63_save_load_mesh` `C66_conserved_refuted` `C66_entries` `C66_total` `C70_map_too_long` `C72_airy_batch` `C72_airy_shape` `C75_equidistant` `C75_unique` `C76_on_cylinder` `C76_outward_refuted` `C76_watertight` `C77_interrupted_single` `C80_bounding_radius_refuted` `C80_circumradius_refuted` `C80_errors` `C80_grid_only` `C80_mesh_in_cube` `C80_mesher_fails` `C80_no_sign_change` `C80_small_body_missed` `C80_surface_close` `C80_zero_circumradius` `C81_axis_write` `C81_detector_built` `C81_detector_follows` `C81_detector_isolated` `C81_detector_isolated_refuted` `C81_mesh_isolated` `C81_motion_built` `C81_motion_follows` `C81_motion_isolated` `C83_grazing_refuted` `C83_path_length` `C83_ray_point` `C86_zero_still_renders` `C87_first_block` `C87_no_block` `C87_one_per_reflection` `C87_readable_iff` `C87_up_to_date` `C89_built_beam` `C89_built_detector` `C89_built_motion` `C89_built_sample` `C89_transformed_sample` `C90_built_together` `C91_built_renumbered` `C92_blind_spot` `C93_stays_same` `C94_built_beam` `C94_built_detector` `C94_built_motion` `C94_built_sample` `C94_transform` `C96_built` `C96_odd_offset_refuted` `C98_hull_order` `C98_lengths` `C98_reversed`

## `ClassicalDedekindReals.sig_forall_dec`, `ClassicalDedekindReals.sig_not_dec`, `Classical_Prop.classic`, `FunctionalExtensionality.functional_extensionality_dep`

`C06_translate_rows_refuted` `C07_laue_sound` `C08_blind_spot` `C08_double_report_refuted` `C08_laue_complete` `C08_laue_complete_refuted` `C09_at_most_two` `C09_laue_indices` `C09_laue_order` `C100_equal_radii` `C100_mixed_radii_refuted` `C100_one_by_one` `C100_only_runtime_error` `C100_whole_radii` `C101_joined_samples` `C101_mixed_discs_refuted` `C101_peaks_have_discs` `C101_renumbered_samples` `C101_same_picture` `C101_superposition` `C101_width_suffices` `C102_discs` `C102_nano_succeeds` `C102_rows_positive` `C102_sample_solid` `C102_strength_positive` `C103_auto` `C103_linear` `C103_micro_near` `C103_volumes_macro` `C103_volumes_nano` `C104_fully_lit` `C104_same_failures` `C104_same_reflections` `C104_spots` `C105_macro_same_failures` `C105_not_the_flip` `C105_transposed_macro` `C105_transposed_micro` `C105_transposed_table` `C105_turned_micro` `C105_turned_table` `C106_broader` `C106_conserved` `C106_each_parent` `C106_each_part` `C106_twice` `C10_peak_contents` `C11_bragg` `C11_bragg_angle` `C12_complete` `C12_table_shape` `C13_always_returns_refuted` `C13_events` `C13_no_phase_map` `C13_outcome` `C15_moved_complete` `C15_moved_rows` `C16_dict_follows_transform` `C16_snapshot_refuted` `C17_beyond_ninety` `C17_detector_limits` `C17_detector_max_ignored` `C17_no_detector` `C17_undefined_cone` `C18_history_independent` `C21_documented_exception_refuted` `C21_outcomes` `C28_backward_nan` `C28_collinear_not_finite` `C28_coordinates_exact` `C28_parallel_not_finite` `C28_round_trip` `C28_skew_refuted` `C29_missed_never_recorded` `C29_recorded_rows_hit` `C29_skew_refuted` `C30_pixel_size_rounding` `C30_pixel_size_rounding_refuted` `C30_power_of_two_rounding` `C30_requested_pixels_rounding` `C31_recorded_frame` `C31_rounded_bin` `C31_rounded_exact` `C31_rounded_monotone` `C32_dictionary_extended` `C32_diffract_tables_fresh` `C32_intensity_product` `C32_never_fails` `C32_no_signed_zero` `C32_rows_are_the_visible_ones` `C33_names_shadowed` `C33_reprojection_uses_stale_coordinates` `C33_second_detector_refuted` `C34_backscatter_refuted` `C34_cone_covers_detector` `C34_half_of_largest_corner_angle` `C34_other_source_refuted` `C35_box_covers_projection` `C35_box_inside_complete_pixels` `C35_missing_vertices_ignored` `C35_nothing_projected` `C35_partial_row_refuted` `C36_dictionary` `C36_empty_table` `C36_nothing_visible` `C36_shape` `C36_unknown_method` `C37_auto_defined` `C37_auto_is_sum` `C37_partition_refuted` `C38_memory_irrelevant` `C39_frame_total_bounded` `C39_micro_never_fails` `C39_order_irrelevant` `C39_pixel_is_sum_of_spots` `C39_strength_nonneg` `C39_superposition` `C40_not_linear_refuted` `C40_weak_peaks_vanish` `C42_equal_sizes_memory_irrelevant` `C42_memory_changes_image_refuted` `C44_centred_refuted` `C46_zero_sigma_macro_nan` `C46_zero_sigma_nano_nan` `C47_macro_frame_total` `C47_missed_sliver_nan` `C47_same_total_refuted` `C49_corner_order` `C49_incident_angle` `C55_detector` `C55_direct_beam` `C57_bins` `C57_neighbours` `C57_separation_refuted` `C57_uniform_accepted` `C57_volumes` `C58_accepted` `C58_accepted_means` `C58_covers` `C58_from_bin` `C59_lorentz_batch` `C59_lorentz_cases` `C59_lorentz_speed` `C60_scherrer_decreases_with_volume` `C60_scherrer_formula` `C60_scherrer_increases_with_angle` `C60_scherrer_positive` `C60_scherrer_scaling` `C60_size_is_equivalent_diameter` `C60_zero_volume` `C63_history` `C63_reload_default` `C63_reload_identity` `C63_save_load_polycrystal` `C64_exportable` `C64_overwrites_refuted` `C64_writes` `C70_unmapped_elements` `C71_border_crash_refuted` `C71_samples_land_in_their_pixel` `C71_wraps_around_refuted` `C72_distance` `C72_distance_from_origin` `C72_narrow_discs` `C72_turned_away_refuted` `C73_full_weight` `C73_visible_share_refuted` `C74_interior_total` `C74_small_discs_finite` `C74_total_bounded` `C76_sample` `C76_sides` `C76_spacing` `C76_succeeds` `C77_interrupted` `C78_fields` `C78_misorientation` `C78_sample_frame` `C79_thickness_profile` `C79_unblurred` `C81_motion_isolated_refuted` `C83_beyond_edge_refuted` `C83_far_edge_refuted` `C83_pixel_coordinates` `C83_same_hits` `C83_sin_theta` `C84_every_reflection_shows` `C84_image_is_sum_of_reflections` `C84_light_has_a_cause` `C85_auto_progress` `C85_auto_radius` `C85_macro_progress` `C85_micro_progress` `C85_nano_progress` `C85_note` `C85_quiet` `C85_radius_note` `C85_radius_only_nano` `C85_same_result` `C85_warning` `C87_as_if_alone` `C87_attributes_consistent_refuted` `C87_half_updated` `C87_material_kept` `C87_no_interference` `C87_same_as_unshared` `C87_structure_column` `C88_blind_spot` `C88_edge_shown_twice` `C88_frames_are_steps` `C89_nano_shift_refuted` `C89_same_nano_picture` `C89_same_picture` `C89_same_table` `C90_joint_picture` `C90_joint_table` `C90_parts_return_refuted` `C90_stays_joined` `C91_same_picture` `C91_same_refusal` `C91_same_table` `C91_stays_renumbered` `C92_edge_changes_frame` `C92_frames_reversed` `C92_same_reflections` `C92_same_refusal` `C93_same_picture` `C93_same_table` `C93_strained_refuted` `C93_symmetry_equivalent` `C94_nano_refuted` `C94_picture` `C94_same_hits` `C94_same_table` `C95_cut_count` `C95_cut_in_two_refuted` `C95_narrowed_table` `C95_picture_monotone` `C95_picture_split` `C95_same_failures` `C96_interior` `C96_part_of_panel` `C96_picture` `C96_same_reflections` `C97_picture_columns` `C98_opposite_rows` `C98_pictures` `C98_polarization_column` `C99_mate` `C99_mate_back` `C99_tilted`
