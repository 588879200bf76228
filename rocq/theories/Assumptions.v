(** The axioms each theorem depends on (generated list; see DESIGN.md, trusted base). *)
From Verif Require Import PropertiesInterp PropertiesProj PropertiesRpc PropertiesRpcConv PropertiesConverse PropertiesDtm PropertiesDtmHidden PropertiesDtm2 PropertiesMem PropertiesPickle PropertiesRpcDtm PropertiesTri PropertiesTri2 PropertiesTri4 PropertiesTri3 PropertiesLoc PropertiesFloat PropertiesFloat2 PropertiesFloatRpc PropertiesFloatCross PropertiesRect PropertiesRect2 PropertiesRectGrid PropertiesRect3 PropertiesDtmRead PropertiesAlias PropertiesStripMem PropertiesVecMem PropertiesRect4 PropertiesRect5 PropertiesGrid PropertiesFloatWalk PropertiesFloatPoint PropertiesFloatLine PropertiesFloatMiss PropertiesFloatGeo PropertiesFloatTer PropertiesFloatCpp PropertiesFloatNewton PropertiesFloatConv PropertiesFloatLos PropertiesFloatDirect PropertiesFloatImage PropertiesFloatGeoid PropertiesFloatEllipsoid PropertiesGridConv PropertiesGrid2 PropertiesGrid3 PropertiesGrid4 PropertiesImage PropertiesReaders PropertiesReaders2 PropertiesWriters PropertiesCrash PropertiesJson PropertiesFactory PropertiesGridRead PropertiesLoad PropertiesOptim PropertiesOptim2 PropertiesRpcDtm2.
Print Assumptions C01_interpol_bilin_reads_inside.
Print Assumptions C01_interpol_bilin_grid_reads_inside.
Print Assumptions C01_interpol_bilin_vectorized_reads_inside.
Print Assumptions C01_cpp_interpolate_reads_inside.
Print Assumptions C01_one_row_fails.
Print Assumptions C02_interpol_bilin_exact_at_nodes.
Print Assumptions C02_interpol_bilin_between_samples.
Print Assumptions C02_hull_is_covered_by_cells.
Print Assumptions C03_interpol_bilin_affine.
Print Assumptions C03_interpol_bilin_is_cell_bilinear.
Print Assumptions C03_no_jump_across_borders.
Print Assumptions C04_grid_agrees.
Print Assumptions C04_vectorized_agrees.
Print Assumptions C04_vectorized_shape.
Print Assumptions C04_cpp_agrees.
Print Assumptions C05_index_point_index.
Print Assumptions C05_point_index_point.
Print Assumptions C05_index_is_pixel_centre.
Print Assumptions C05_dtm_ter_index_ter.
Print Assumptions C05_dtm_index_ter_index.
Print Assumptions C05_dtm_altitude_kept.
Print Assumptions C05_dtm_axes.
Print Assumptions C05_dtm_batch.
Print Assumptions C05_cpp_ter_to_index.
Print Assumptions C05_cpp_index_to_ter.
Print Assumptions C05_cpp_round_trip.
Print Assumptions C05_footprint_corners.
Print Assumptions C06_check_lonlat_length.
Print Assumptions C06_check_lonlat_rowwise.
Print Assumptions C06_check_lonlat_idempotent.
Print Assumptions C07_python_polynomial_is_cubic_form.
Print Assumptions C07_cpp_polynomial_is_cubic_form.
Print Assumptions C07_monomial_table_is_cubic_form.
Print Assumptions C09_inverse_loc_value.
Print Assumptions C09_inverse_loc_pointwise.
Print Assumptions C09_inverse_loc_invalid_point.
Print Assumptions C09_inverse_loc_scalar_altitude.
Print Assumptions C09_inverse_loc_first_altitude.
Print Assumptions C09_cpp_inverse_loc_value.
Print Assumptions C09_cpp_range_check_refuted.
Print Assumptions C09_cpp_inverse_loc_vector.
Print Assumptions C08_python_derivatives.
Print Assumptions C08_cpp_derivatives.
Print Assumptions C08_derivatives_pointwise.
Print Assumptions C08_table_deriv_1.
Print Assumptions C08_table_deriv_2.
Print Assumptions C10_residue_any_altitudes_partial.
Print Assumptions C10_residue_common_altitude.
Print Assumptions C10_residue_mixed_altitudes_refuted.
Print Assumptions C11_batch_is_pointwise_newton_partial.
Print Assumptions C11_newton_run_deterministic.
Print Assumptions C11_cpp_point_is_newton.
Print Assumptions C11_python_cpp_agree_partial.
Print Assumptions C11_batch_with_altitudes_refuted.
Print Assumptions C10_affine_model_exact.
Print Assumptions C12_defined_and_shape.
Print Assumptions C12_missing_coefficients.
Print Assumptions C12_altitude_kept.
Print Assumptions C12_scalar_altitude.
Print Assumptions C12_lengths.
Print Assumptions C12_iterative_lengths.
Print Assumptions C12_nan_pixel.
Print Assumptions C12_nan_pixels_are_neutral.
Print Assumptions C12_direct_value.
Print Assumptions C12_iterative_value.
Print Assumptions C51_failure_is_local_refuted.
Print Assumptions C51_converging_pixels_are_independent_partial.
Print Assumptions C52_rational_schedule_independent.
Print Assumptions C52_derivates_schedule_independent.
Print Assumptions C52_single_writer.
Print Assumptions C13_bounds_inside_domain.
Print Assumptions C13_no_bounds.
Print Assumptions C13_extrapolation.
Print Assumptions C13_epsg.
Print Assumptions C13_cpp_bounds_inside_domain.
Print Assumptions C13_cpp_extrapolation.
Print Assumptions C10_los_extrema_lower_point_refuted.
Print Assumptions C82_direct_loc_converges.
Print Assumptions C82_compiled_converges.
Print Assumptions C82_one_position.
Print Assumptions C11_located_batch_is_newton.
Print Assumptions C11_located_batch_python_cpp_agree.
Print Assumptions C11_cpp_finite_result_is_newton.
Print Assumptions C14_cell_bounds_bracket_the_surface.
Print Assumptions C14_global_bounds_attained.
Print Assumptions C14_cell_bounds_close.
Print Assumptions C14_cpp_bounds_agree.
Print Assumptions C15_point_on_line_and_face.
Print Assumptions C15_first_point_of_the_cube.
Print Assumptions C15_succeeds_when_the_segment_goes_inside.
Print Assumptions C15_succeeds_through_the_dtm.
Print Assumptions C16_index_in_range_partial.
Print Assumptions C16_first_vertex_on_a_face_gives_minus_one.
Print Assumptions C16_start_on_the_first_row_never_found.
Print Assumptions C16_index_in_range_refuted.
Print Assumptions C17_two_points.
Print Assumptions C17_polyline_partial.
Print Assumptions C17_vertical_segment_refuted.
Print Assumptions C18_two_points_terminates.
Print Assumptions C18_result_independent_of_the_bound.
Print Assumptions C18_cells_and_refinements_per_segment.
Print Assumptions C18_polyline_terminates_partial.
Print Assumptions C19_move.
Print Assumptions C19_start.
Print Assumptions C19_skipped_cells.
Print Assumptions C19_not_found_above_the_borders.
Print Assumptions C19_line_through_the_dtm_is_found.
Print Assumptions C17_vertical_segments_partial.
Print Assumptions C17_hidden_vertex_refuted.
Print Assumptions C18_vertical_segments_partial.
Print Assumptions C18_no_hidden_vertex_partial.
Print Assumptions C18_hidden_vertex_refuted.
Print Assumptions C20_outside_the_box_gives_nan_partial.
Print Assumptions C20_missed_surface_gives_zeros.
Print Assumptions C20_miss_gives_nan_refuted.
Print Assumptions C19_along_the_last_line_refuted.
Print Assumptions C21_same_result_partial.
Print Assumptions C21_same_result_polyline_partial.
Print Assumptions C21_found_by_python_only_refuted.
Print Assumptions C21_first_vertex_on_a_face_refuted.
Print Assumptions C22_not_below_before_the_result_partial.
Print Assumptions C22_above_at_the_borders_before_the_result.
Print Assumptions C22_first_crossing_refuted.
Print Assumptions C53_batch_always_succeeds_refuted.
Print Assumptions C53_fails_only_on_the_surface_partial.
Print Assumptions C53_batch_succeeds_partial.
Print Assumptions C54_found_between_the_ends_partial.
Print Assumptions C54_found_between_the_ends_refuted.
Print Assumptions C90_constructor.
Print Assumptions C90_accesses.
Print Assumptions C90_no_cells.
Print Assumptions C90_empty_refuted.
Print Assumptions C90_one_line.
Print Assumptions C90_line_of_sight_partial.
Print Assumptions C90_in_the_surface_refuted.
Print Assumptions C90_batch.
Print Assumptions C90_other_arrays_refuted.
Print Assumptions C90_one_row_refuted.
Print Assumptions C70_round_trip.
Print Assumptions C70_same_intersections.
Print Assumptions C70_faces_table.
Print Assumptions C70_fully_initialised.
Print Assumptions C70_other_sizes_rejected.
Print Assumptions C70_accepted_states.
Print Assumptions C55_surface_point_partial.
Print Assumptions C55_line_over_the_dtm_is_localized_partial.
Print Assumptions C55_grid_at_constant_altitude_refuted.
Print Assumptions C23_concurrent_sights_give_their_point.
Print Assumptions C24_least_squares_minimiser.
Print Assumptions C24_parallel_sights_rejected.
Print Assumptions C25_residues_are_distances.
Print Assumptions C25_two_view_residue.
Print Assumptions C26_matches_are_independent.
Print Assumptions C26_batch_succeeds_partial.
Print Assumptions C26_parallel_match_disturbs_others_refuted.
Print Assumptions C26_nan_view_is_ignored.
Print Assumptions C26_sensor_triangulation_is_pointwise.
Print Assumptions C27_pixels_become_matches.
Print Assumptions C27_points_return_to_their_pixels.
Print Assumptions C28_unit_viewing_vectors.
Print Assumptions C71_ground_points_are_recovered.
Print Assumptions C71_least_squares.
Print Assumptions C71_rpc_ground_points_are_recovered.
Print Assumptions C84_precision.
Print Assumptions C84_within.
Print Assumptions C84_sharp.
Print Assumptions C84_sensor_precision.
Print Assumptions C76_disparity_map_gives_its_ground_points.
Print Assumptions C76_given_matches_give_their_ground_points.
Print Assumptions C45_direct_uses_the_right_source.
Print Assumptions C45_inverse_conversions.
Print Assumptions C45_inverse_altitude.
Print Assumptions C45_altitudes_of_other_points.
Print Assumptions C46_inverse_undoes_direct.
Print Assumptions C46_dtm_in_another_system_refuted.
Print Assumptions C47_coloc_composes.
Print Assumptions C47_lengths_are_checked.
Print Assumptions C47_coloc_between_images.
Print Assumptions C47_self_coloc_is_identity.
Print Assumptions C47_self_coloc_over_foreign_dtm_refuted.
Print Assumptions C56_extent_encloses_the_image_partial.
Print Assumptions C56_rotated_image_refuted.
Print Assumptions C77_whole_steps_partial.
Print Assumptions C77_zero_step.
Print Assumptions C77_whole_model_grids_partial.
Print Assumptions C77_at_most_one_more.
Print Assumptions C77_fractional_step_refuted.
Print Assumptions C77_fractional_model_refuted.
Print Assumptions C85_rounding_error.
Print Assumptions C85_nearly_between_samples.
Print Assumptions C85_exact_at_nodes.
Print Assumptions C85_between_samples_refuted.
Print Assumptions C86_top_entry_refuted.
Print Assumptions C86_entry_test_partial.
Print Assumptions C88_rounding_error.
Print Assumptions C88_pixel_error.
Print Assumptions C88_two_evaluations.
Print Assumptions C88_degree_error.
Print Assumptions C88_source_orders.
Print Assumptions C86_crossing_error.
Print Assumptions C29_angle_is_the_direction.
Print Assumptions C29_same_angle_for_failed_points_refuted.
Print Assumptions C30_step.
Print Assumptions C30_other_axes_rejected.
Print Assumptions C30_cpp_step.
Print Assumptions C31_strip_size.
Print Assumptions C31_strip_follows_the_epipolar_directions.
Print Assumptions C31_cpp_gives_the_same_strip.
Print Assumptions C31_whole_grid.
Print Assumptions C32_strip_mean.
Print Assumptions C32_value_for_a_constant_ratio.
Print Assumptions C32_mean_of_the_grid_refuted.
Print Assumptions C32_mean_of_a_square_grid_partial.
Print Assumptions C33_adaptive_strip_fits_refuted.
Print Assumptions C33_adaptive_strip_fits_partial.
Print Assumptions C34_box_and_number_of_nodes.
Print Assumptions C34_grid_covers_the_image.
Print Assumptions C34_fractional_step_refuted.
Print Assumptions C34_rotated_image_refuted.
Print Assumptions C58_nodes_in_the_footprint_partial.
Print Assumptions C58_nodes_in_the_footprint_refuted.
Print Assumptions C57_extent_of_the_footprint.
Print Assumptions C57_extent_of_an_affine_camera.
Print Assumptions C35_displacements_and_positions_read_the_same.
Print Assumptions C35_interpolation.
Print Assumptions C35_exact_at_the_nodes.
Print Assumptions C35_file_with_any_steps.
Print Assumptions C75_same_row_for_affine_sensors.
Print Assumptions C49_valid_cells_kept.
Print Assumptions C49_geoid_height_added.
Print Assumptions C49_statistic_fills.
Print Assumptions C49_values_of_the_valid_cells.
Print Assumptions C49_statistics_within.
Print Assumptions C49_held_within.
Print Assumptions C49_default_leaves_no_nodata.
Print Assumptions C49_no_valid_cell_raises.
Print Assumptions C49_no_valid_cell_raises_integers.
Print Assumptions C49_single_row_refuted.
Print Assumptions C49_integer_mean_refuted.
Print Assumptions C49_integer_constant_refuted.
Print Assumptions C49_default_leaves_nan_refuted.
Print Assumptions C49_constant_default_leaves_nan_refuted.
Print Assumptions C50_height_modulo_360.
Print Assumptions C50_same_height_modulo_360.
Print Assumptions C50_height_is_unique.
Print Assumptions C50_latitude_beyond_a_pole.
Print Assumptions C50_positive_first_longitude_refuted.
Print Assumptions C61_number_only_where_covered_partial.
Print Assumptions C61_outside_is_nan_refuted.
Print Assumptions C92_geoid_call.
Print Assumptions C92_geoid_same_places.
Print Assumptions C92_geoid_again.
Print Assumptions C92_geoid_untouched_refuted.
Print Assumptions C92_displacement_call.
Print Assumptions C92_displacement_untouched_refuted.
Print Assumptions C92_displacement_same_array_refuted.
Print Assumptions C92_check_lonlat.
Print Assumptions C92_inverse_inputs.
Print Assumptions C93_strip.
Print Assumptions C93_stays_inside.
Print Assumptions C93_only_these_shapes.
Print Assumptions C93_same_as_python.
Print Assumptions C93_positions_untouched_refuted.
Print Assumptions C94_inverse_inside.
Print Assumptions C94_inverse_only.
Print Assumptions C94_direct_inside.
Print Assumptions C94_direct_only.
Print Assumptions C94_class_direct.
Print Assumptions C94_class_inverse_partial.
Print Assumptions C94_unset_coefficients_refuted.
Print Assumptions C94_dtm_vectors.
Print Assumptions C94_own_altitude_refuted.
Print Assumptions C78_adaptive_grids.
Print Assumptions C79_homologous_refuted.
Print Assumptions C79_homologous_partial.
Print Assumptions C80_plain_size.
Print Assumptions C80_adaptive_size_refuted.
Print Assumptions C80_adaptive_size_partial.
Print Assumptions C81_flat_ground.
Print Assumptions C89_left_node_refuted.
Print Assumptions C89_adaptive_step_size_refuted.
Print Assumptions C37_lookup_encloses.
Print Assumptions C37_single_layer_refuted.
Print Assumptions C37_direct_loc_h_interpolates.
Print Assumptions C37_lengths.
Print Assumptions C37_not_a_number.
Print Assumptions C37_ground_defined.
Print Assumptions C37_exact_on_the_layers.
Print Assumptions C38_matrix_is_the_inverse.
Print Assumptions C38_matrix_exists_iff_not_parallel.
Print Assumptions C38_lengths.
Print Assumptions C38_batch_is_pointwise.
Print Assumptions C38_affine_grid_exact.
Print Assumptions C38_no_correction.
Print Assumptions C38_loop.
Print Assumptions C96_walk_ends.
Print Assumptions C96_only_the_refinement.
Print Assumptions C96_refinement_ends.
Print Assumptions C96_usual_terrain_partial.
Print Assumptions C96_unfilled_nodata_refuted.
Print Assumptions C97_on_the_surface.
Print Assumptions C97_exact_surface.
Print Assumptions C97_point_of_a_cell.
Print Assumptions C97_infinite_point_refuted.
Print Assumptions C98_entry.
Print Assumptions C98_walk.
Print Assumptions C98_refined_point.
Print Assumptions C98_on_the_line_partial.
Print Assumptions C99_cell_not_skipped.
Print Assumptions C99_walked_segment.
Print Assumptions C99_not_found.
Print Assumptions C99_first_cell.
Print Assumptions C99_next_cell.
Print Assumptions C100_index_to_physical.
Print Assumptions C100_physical_to_index.
Print Assumptions C100_index_round_trip.
Print Assumptions C100_physical_round_trip.
Print Assumptions C101_ground_on_the_surface.
Print Assumptions C101_intersection.
Print Assumptions C102_same_ground_position.
Print Assumptions C102_same_ground_position_refuted.
Print Assumptions C103_batch.
Print Assumptions C103_one_altitude.
Print Assumptions C103_compiled.
Print Assumptions C103_near_the_ground_position.
Print Assumptions C103_two_versions.
Print Assumptions C104_compiled.
Print Assumptions C104_one_altitude.
Print Assumptions C104_batch.
Print Assumptions C104_results.
Print Assumptions C105_in_range.
Print Assumptions C105_prolonged.
Print Assumptions C105_no_pixel.
Print Assumptions C105_compiled_in_range.
Print Assumptions C105_compiled_prolonged.
Print Assumptions C105_results.
Print Assumptions C106_on_the_ground.
Print Assumptions C106_compiled.
Print Assumptions C106_no_pixel.
Print Assumptions C106_results.
Print Assumptions C107_in_the_file.
Print Assumptions C107_window.
Print Assumptions C107_georeference.
Print Assumptions C107_coordinates.
Print Assumptions C108_heights_partial.
Print Assumptions C108_has_a_height.
Print Assumptions C108_beyond_a_pole.
Print Assumptions C108_first_meridian_refuted.
Print Assumptions C108_pole_refuted.
Print Assumptions C109_altitudes.
Print Assumptions C109_beyond_a_pole.
Print Assumptions C83_inverse_loc_converges.
Print Assumptions C83_one_pixel.
Print Assumptions C39_lines_cover_the_dtm.
Print Assumptions C59_surface_point_partial.
Print Assumptions C59_batch_is_pointwise.
Print Assumptions C59_other_system_refuted.
Print Assumptions C39_ends_of_the_line.
Print Assumptions C39_default_altitudes_refuted.
Print Assumptions C60_grid_h_nodes.
Print Assumptions C60_grid_dtm_nodes_partial.
Print Assumptions C60_grid_dtm_nodes_refuted.
Print Assumptions C72_least_squares.
Print Assumptions C72_exact.
Print Assumptions C72_affine_inverse_loc.
Print Assumptions C73_nodes.
Print Assumptions C73_homologous_pixel.
Print Assumptions C74_nodes.
Print Assumptions C74_answers.
Print Assumptions C74_same_size.
Print Assumptions C48_window_in_the_file.
Print Assumptions C48_pixel_region.
Print Assumptions C48_ground_region.
Print Assumptions C48_westward_columns_refuted.
Print Assumptions C48_rotated_image_refuted.
Print Assumptions C48_outside_region_raises_refuted.
Print Assumptions C48_window_is_georeferenced.
Print Assumptions C48_vertical_direction.
Print Assumptions C48_inverse_transform.
Print Assumptions C40_dimap_v2.
Print Assumptions C40_dimap_v3.
Print Assumptions C40_dimap_v1.
Print Assumptions C40_ossim.
Print Assumptions C40_rasterio.
Print Assumptions C40_same_geometry_same_parameters.
Print Assumptions C40_topleft_is_half_a_pixel.
Print Assumptions C43_xml_names.
Print Assumptions C43_raster_first.
Print Assumptions C43_dimap_by_version.
Print Assumptions C43_ossim_then_error.
Print Assumptions C43_driver_reported.
Print Assumptions C41_geotiff.
Print Assumptions C41_rpb.
Print Assumptions C41_geotiff_rpb.
Print Assumptions C41_json.
Print Assumptions C41_direct_coefficients_refuted.
Print Assumptions C42_unknown_format.
Print Assumptions C42_only_the_target_changes.
Print Assumptions C42_exception_changes_nothing.
Print Assumptions C42_geotiff_partial.
Print Assumptions C42_never_overwrites_refuted.
Print Assumptions C42_raises_otherwise_refuted.
Print Assumptions C62_converted_model.
Print Assumptions C62_files.
Print Assumptions C91_complete_rpb.
Print Assumptions C91_complete_json.
Print Assumptions C91_other_files.
Print Assumptions C91_interrupted_rpb.
Print Assumptions C91_interrupted_json.
Print Assumptions C91_old_file_refuted.
Print Assumptions C95_json_back.
Print Assumptions C95_json_interrupted.
Print Assumptions C95_own_reader_refuted.
Print Assumptions C44_last_registration_wins.
Print Assumptions C44_default_type.
Print Assumptions C44_unknown_type.
Print Assumptions C44_listing.
Print Assumptions C36_layers_from_top_to_bottom.
Print Assumptions C36_missing_altitude_refuted.
Print Assumptions C36_nodes_are_where_the_file_says.
Print Assumptions C36_rotation_dropped_refuted.
Print Assumptions C36_coordinate_system.
Print Assumptions C36_no_coordinate_system.
Print Assumptions C63_pixel_convention.
Print Assumptions C64_converted_to_geotiff.
Print Assumptions C64_written_as_rpb.
Print Assumptions C64_direct_coefficients_refuted.
Print Assumptions C65_format_is_irrelevant.
Print Assumptions C65_model_of_the_geometry.
Print Assumptions C67_same_model.
Print Assumptions C67_buildable.
Print Assumptions C67_loaded.
Print Assumptions C66_same_result.
Print Assumptions C66_zero_denominator_fails_the_batch.
Print Assumptions C66_zero_denominator_refuted.
Print Assumptions C66_one_altitude_refuted.
Print Assumptions C68_pointwise.
Print Assumptions C68_value.
Print Assumptions C68_same_result_partial.
Print Assumptions C68_same_result_direct.
Print Assumptions C68_mixed_altitudes_refuted.
Print Assumptions C69_other_system_partial.
Print Assumptions C69_bounds.
Print Assumptions C69_default_bounds_refuted.
Print Assumptions C69_two_pixels_refuted.
Print Assumptions C69_surface_point_partial.
Print Assumptions C69_line_over_the_dtm_is_localized_partial.
Print Assumptions C87_surface_point_partial.
Print Assumptions C87_line_over_the_dtm_is_localized_partial.
Print Assumptions C87_optim_surface_point_partial.
Print Assumptions C87_height_between_the_corners_refuted.
