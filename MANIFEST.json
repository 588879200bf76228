{
 "claims": [
  {
   "property": "C01",
   "status": "proved",
   "theorems": [
    "C01_interpol_bilin_reads_inside",
    "C01_interpol_bilin_grid_reads_inside",
    "C01_interpol_bilin_vectorized_reads_inside",
    "C01_cpp_interpolate_reads_inside",
    "C01_one_row_fails"
   ],
   "note": ""
  },
  {
   "property": "C02",
   "status": "proved",
   "theorems": [
    "C02_interpol_bilin_exact_at_nodes",
    "C02_interpol_bilin_between_samples",
    "C02_hull_is_covered_by_cells"
   ],
   "note": ""
  },
  {
   "property": "C03",
   "status": "proved",
   "theorems": [
    "C03_interpol_bilin_affine",
    "C03_interpol_bilin_is_cell_bilinear",
    "C03_no_jump_across_borders"
   ],
   "note": ""
  },
  {
   "property": "C04",
   "status": "proved",
   "theorems": [
    "C04_grid_agrees",
    "C04_vectorized_agrees",
    "C04_vectorized_shape",
    "C04_cpp_agrees"
   ],
   "note": ""
  },
  {
   "property": "C05",
   "status": "proved",
   "theorems": [
    "C05_index_point_index",
    "C05_point_index_point",
    "C05_index_is_pixel_centre",
    "C05_dtm_ter_index_ter",
    "C05_dtm_index_ter_index",
    "C05_dtm_altitude_kept",
    "C05_dtm_axes",
    "C05_dtm_batch",
    "C05_cpp_ter_to_index",
    "C05_cpp_index_to_ter",
    "C05_cpp_round_trip",
    "C05_footprint_corners"
   ],
   "note": ""
  },
  {
   "property": "C06",
   "status": "proved",
   "theorems": [
    "C06_check_lonlat_length",
    "C06_check_lonlat_rowwise",
    "C06_check_lonlat_idempotent"
   ],
   "note": ""
  },
  {
   "property": "C07",
   "status": "proved",
   "theorems": [
    "C07_python_polynomial_is_cubic_form",
    "C07_cpp_polynomial_is_cubic_form",
    "C07_monomial_table_is_cubic_form"
   ],
   "note": ""
  },
  {
   "property": "C08",
   "status": "proved",
   "theorems": [
    "C08_python_derivatives",
    "C08_cpp_derivatives",
    "C08_derivatives_pointwise",
    "C08_table_deriv_1",
    "C08_table_deriv_2"
   ],
   "note": ""
  },
  {
   "property": "C09",
   "status": "proved",
   "theorems": [
    "C09_inverse_loc_value",
    "C09_inverse_loc_pointwise",
    "C09_inverse_loc_invalid_point",
    "C09_inverse_loc_scalar_altitude",
    "C09_inverse_loc_first_altitude",
    "C09_cpp_inverse_loc_value",
    "C09_cpp_range_check_refuted",
    "C09_cpp_inverse_loc_vector"
   ],
   "note": "Also shown: the C++ twin performs no longitude/latitude range check (C09_cpp_range_check_refuted)."
  },
  {
   "property": "C10",
   "status": "partial",
   "theorems": [
    "C10_residue_any_altitudes_partial",
    "C10_residue_common_altitude",
    "C10_residue_mixed_altitudes_refuted",
    "C10_affine_model_exact",
    "C10_los_extrema_lower_point_refuted"
   ],
   "note": "False of the code when a batch mixes altitudes (refuted, also through los_extrema): the initial residue uses the altitude of the first pixel. Proved for batches at one altitude; for mixed altitudes the proved disjunction is C10_residue_any_altitudes_partial."
  },
  {
   "property": "C11",
   "status": "partial",
   "theorems": [
    "C11_batch_is_pointwise_newton_partial",
    "C11_newton_run_deterministic",
    "C11_cpp_point_is_newton",
    "C11_python_cpp_agree_partial",
    "C11_batch_with_altitudes_refuted",
    "C11_located_batch_is_newton",
    "C11_located_batch_python_cpp_agree",
    "C11_cpp_finite_result_is_newton"
   ],
   "note": "False of the code for per-point altitudes (C11_batch_with_altitudes_refuted). Proved for batches at one altitude, in both directions (Newton runs give the batch result, and a located batch is made of Newton runs), with equality with the C++ twin there."
  },
  {
   "property": "C12",
   "status": "proved",
   "theorems": [
    "C12_defined_and_shape",
    "C12_missing_coefficients",
    "C12_altitude_kept",
    "C12_scalar_altitude",
    "C12_lengths",
    "C12_iterative_lengths",
    "C12_nan_pixel",
    "C12_nan_pixels_are_neutral",
    "C12_direct_value",
    "C12_iterative_value"
   ],
   "note": ""
  },
  {
   "property": "C13",
   "status": "proved",
   "theorems": [
    "C13_bounds_inside_domain",
    "C13_no_bounds",
    "C13_extrapolation",
    "C13_epsg",
    "C13_cpp_bounds_inside_domain",
    "C13_cpp_extrapolation"
   ],
   "note": ""
  },
  {
   "property": "C14",
   "status": "proved",
   "theorems": [
    "C14_cell_bounds_bracket_the_surface",
    "C14_global_bounds_attained",
    "C14_cell_bounds_close",
    "C14_cpp_bounds_agree"
   ],
   "note": ""
  },
  {
   "property": "C15",
   "status": "proved",
   "theorems": [
    "C15_point_on_line_and_face",
    "C15_first_point_of_the_cube",
    "C15_succeeds_when_the_segment_goes_inside",
    "C15_succeeds_through_the_dtm"
   ],
   "note": ""
  },
  {
   "property": "C16",
   "status": "partial",
   "theorems": [
    "C16_index_in_range_partial",
    "C16_first_vertex_on_a_face_gives_minus_one",
    "C16_start_on_the_first_row_never_found",
    "C16_index_in_range_refuted"
   ],
   "note": "False of the code when the first vertex lies on a face plane of the cube: the index is -1 (refuted); proved when it does not."
  },
  {
   "property": "C17",
   "status": "partial",
   "theorems": [
    "C17_two_points",
    "C17_polyline_partial",
    "C17_vertical_segment_refuted",
    "C17_vertical_segments_partial",
    "C17_hidden_vertex_refuted"
   ],
   "note": "Proved for every line of sight of two points (what the library builds for rational models). Polylines (what it builds for grids): proved without vertical segments and hidden vertices; with vertical segments the point is on the surface (C17_vertical_segments_partial) but not on the line (C17_vertical_segment_refuted); with a vertex hidden in a cell the point may be outside of the DTM (C17_hidden_vertex_refuted)."
  },
  {
   "property": "C18",
   "status": "partial",
   "theorems": [
    "C18_two_points_terminates",
    "C18_result_independent_of_the_bound",
    "C18_cells_and_refinements_per_segment",
    "C18_polyline_terminates_partial",
    "C18_vertical_segments_partial",
    "C18_no_hidden_vertex_partial",
    "C18_hidden_vertex_refuted"
   ],
   "note": "Proved with an explicit bound for two points, per segment, and for every polyline, vertical segments included, without a vertex hidden in a cell. With a hidden vertex the refinement may never end: refuted (C18_hidden_vertex_refuted). C18_no_hidden_vertex_partial gives two classes without hidden vertices."
  },
  {
   "property": "C19",
   "status": "partial",
   "theorems": [
    "C19_move",
    "C19_start",
    "C19_skipped_cells",
    "C19_not_found_above_the_borders",
    "C19_line_through_the_dtm_is_found",
    "C19_along_the_last_line_refuted"
   ],
   "note": "Proved for lines of sight strictly above the surface at entry and below at exit inside the hull. False for a line of sight along the last row or column of the DTM (C19_along_the_last_line_refuted): it is rejected."
  },
  {
   "property": "C20",
   "status": "partial",
   "theorems": [
    "C20_outside_the_box_gives_nan_partial",
    "C20_missed_surface_gives_zeros",
    "C20_miss_gives_nan_refuted"
   ],
   "note": "False of the code when the surface is missed inside the cube: the result is (0,0,0) (C20_miss_gives_nan_refuted, C20_missed_surface_gives_zeros). Proved: lines of sight outside the box give NaN."
  },
  {
   "property": "C21",
   "status": "partial",
   "theorems": [
    "C21_same_result_partial",
    "C21_same_result_polyline_partial",
    "C21_found_by_python_only_refuted",
    "C21_first_vertex_on_a_face_refuted"
   ],
   "note": "False of the code in general (two refutations: cell borders with decreasing lines, first vertex on a face). Proved equal otherwise."
  },
  {
   "property": "C22",
   "status": "partial",
   "theorems": [
    "C22_not_below_before_the_result_partial",
    "C22_above_at_the_borders_before_the_result",
    "C22_first_crossing_refuted"
   ],
   "note": "False of the code for a double crossing inside one saddle cell (refuted). Proved: the line of sight is not below the surface at the cell borders before the result."
  },
  {
   "property": "C23",
   "status": "proved",
   "theorems": [
    "C23_concurrent_sights_give_their_point"
   ],
   "note": "Any number of points and views, exact reals; residues proved zero as well."
  },
  {
   "property": "C24",
   "status": "proved",
   "theorems": [
    "C24_least_squares_minimiser",
    "C24_parallel_sights_rejected"
   ],
   "note": "Unique minimiser among all ground points; a point whose sights are all parallel is rejected (the inverse raises)."
  },
  {
   "property": "C25",
   "status": "proved",
   "theorems": [
    "C25_residues_are_distances",
    "C25_two_view_residue"
   ],
   "note": "Every residue is the Euclidean distance to the line, zero iff the line passes through the point; the two-view residue reported with the left line is also the distance to the right line."
  },
  {
   "property": "C26",
   "status": "partial",
   "theorems": [
    "C26_matches_are_independent",
    "C26_batch_succeeds_partial",
    "C26_parallel_match_disturbs_others_refuted",
    "C26_nan_view_is_ignored",
    "C26_sensor_triangulation_is_pointwise"
   ],
   "note": "Independence and NaN handling proved for every batch that is triangulated, for los_triangulation and through sensor_triangulation. Refuted: one finite match with parallel sights makes the whole batch raise; the batch is proved to succeed when finite matches are not parallel."
  },
  {
   "property": "C27",
   "status": "proved",
   "theorems": [
    "C27_pixels_become_matches",
    "C27_points_return_to_their_pixels"
   ],
   "note": "Matches of the selected pixels in row-major order; points are written back at their pixels, masked pixels get (0,0,0)."
  },
  {
   "property": "C28",
   "status": "proved",
   "theorems": [
    "C28_unit_viewing_vectors"
   ],
   "note": "For models and conversions that treat points one by one."
  },
  {
   "property": "C29",
   "status": "partial",
   "theorems": [
    "C29_angle_is_the_direction",
    "C29_same_angle_for_failed_points_refuted"
   ],
   "note": "Direction, range and equality with the C++ twin proved for every pair of points with known coordinates. Beyond the statement, the two twins differ on a point whose coordinates are NaN (refuted): Python gives 0, C++ gives NaN."
  },
  {
   "property": "C30",
   "status": "proved",
   "theorems": [
    "C30_step",
    "C30_other_axes_rejected",
    "C30_cpp_step"
   ],
   "note": "Every real step, angle and spacing; the two axes are orthogonal; other axes rejected."
  },
  {
   "property": "C31",
   "status": "proved",
   "theorems": [
    "C31_strip_size",
    "C31_strip_follows_the_epipolar_directions",
    "C31_cpp_gives_the_same_strip",
    "C31_whole_grid"
   ],
   "note": "Size, start points and steps for every pair of point-wise models; the C++ strip is equal; the whole grid has the announced shape."
  },
  {
   "property": "C32",
   "status": "partial",
   "theorems": [
    "C32_strip_mean",
    "C32_value_for_a_constant_ratio",
    "C32_mean_of_the_grid_refuted",
    "C32_mean_of_a_square_grid_partial"
   ],
   "note": "False of the code (C32_mean_of_the_grid_refuted): the weights of the two strips do not count the nodes. Proved: exact value returned for a strip, equality for a constant ratio and for square grids."
  },
  {
   "property": "C33",
   "status": "partial",
   "theorems": [
    "C33_adaptive_strip_fits_refuted",
    "C33_adaptive_strip_fits_partial"
   ],
   "note": "False of the code: a baseline ratio history overflows the adaptive buffer (IndexError, refuted). Proved: with a step that shrinks by at most the reserved factor, the strip fits."
  },
  {
   "property": "C34",
   "status": "partial",
   "theorems": [
    "C34_box_and_number_of_nodes",
    "C34_grid_covers_the_image",
    "C34_fractional_step_refuted",
    "C34_rotated_image_refuted"
   ],
   "note": "Box, size and node counts proved for every unrotated geotransform and positive integer step; coverage of every pixel centre with a constant direction. Refuted for a step below one and for a rotated geotransform."
  },
  {
   "property": "C35",
   "status": "proved",
   "theorems": [
    "C35_displacements_and_positions_read_the_same",
    "C35_interpolation",
    "C35_exact_at_the_nodes",
    "C35_file_with_any_steps"
   ],
   "note": "Any grid of known positions; scipy's interpolator is modelled as bilinear."
  },
  {
   "property": "C36",
   "status": "proved",
   "theorems": [
    "C36_layers_from_top_to_bottom",
    "C36_missing_altitude_refuted",
    "C36_nodes_are_where_the_file_says",
    "C36_rotation_dropped_refuted",
    "C36_coordinate_system",
    "C36_no_coordinate_system"
   ],
   "note": "For every argsort that sorts, files tagged as documented: layers, node positions, coordinate system. A layer without an altitude tag is read at altitude 0 without an exception (C36_missing_altitude_refuted); a rotation in the geotransform is dropped (C36_rotation_dropped_refuted). Grids with at least two rows and columns; finite altitudes."
  },
  {
   "property": "C37",
   "status": "proved",
   "theorems": [
    "C37_lookup_encloses",
    "C37_single_layer_refuted",
    "C37_direct_loc_h_interpolates",
    "C37_lengths",
    "C37_not_a_number",
    "C37_ground_defined",
    "C37_exact_on_the_layers"
   ],
   "note": "scipy's RegularGridInterpolator and interp1d are modelled by their formulas. A grid with a single layer gives the layers (-1, 0): refuted, the theorems take at least two."
  },
  {
   "property": "C38",
   "status": "proved",
   "theorems": [
    "C38_matrix_is_the_inverse",
    "C38_matrix_exists_iff_not_parallel",
    "C38_lengths",
    "C38_batch_is_pointwise",
    "C38_affine_grid_exact",
    "C38_no_correction",
    "C38_loop"
   ],
   "note": "Exact real arithmetic. The re-projection is that of the pixel before the last correction (that is what the loop tests)."
  },
  {
   "property": "C39",
   "status": "partial",
   "theorems": [
    "C39_lines_cover_the_dtm",
    "C39_ends_of_the_line",
    "C39_default_altitudes_refuted"
   ],
   "note": "Proved for the lines direct_loc_dtm intersects. Refuted for the default altitudes of compute_los, which direct_loc_grid_dtm uses."
  },
  {
   "property": "C40",
   "status": "proved",
   "theorems": [
    "C40_dimap_v2",
    "C40_dimap_v3",
    "C40_dimap_v1",
    "C40_ossim",
    "C40_rasterio",
    "C40_same_geometry_same_parameters",
    "C40_topleft_is_half_a_pixel"
   ],
   "note": "Each format is specified separately (ReadersSpec) with its own numbering of the first pixel. rasterio, minidom and float are external; OSSIM and raster files carry no direct coefficients."
  },
  {
   "property": "C41",
   "status": "proved",
   "theorems": [
    "C41_geotiff",
    "C41_rpb",
    "C41_geotiff_rpb",
    "C41_json",
    "C41_direct_coefficients_refuted"
   ],
   "note": "GeoTIFF, RPB and JSON. The RPB text is read through an independent specification of its statements, for numbers whose printed text reads back as themselves. The direct coefficients are not written (C41_direct_coefficients_refuted), which the statement does not claim."
  },
  {
   "property": "C42",
   "status": "partial",
   "theorems": [
    "C42_unknown_format",
    "C42_only_the_target_changes",
    "C42_exception_changes_nothing",
    "C42_geotiff_partial",
    "C42_never_overwrites_refuted",
    "C42_raises_otherwise_refuted"
   ],
   "note": "Holds for geotiff: unknown formats, frame, exceptions and protection of existing RPCs are proved. Refuted for the other formats, which overwrite without override, and for a missing or unreadable geotiff, which is ignored without an exception."
  },
  {
   "property": "C43",
   "status": "proved",
   "theorems": [
    "C43_xml_names",
    "C43_raster_first",
    "C43_dimap_by_version",
    "C43_ossim_then_error",
    "C43_driver_reported"
   ],
   "note": "The statement gives the order of the tests that the code applies. An infinite DIMAP version is merged with NaN in the model."
  },
  {
   "property": "C44",
   "status": "proved",
   "theorems": [
    "C44_last_registration_wins",
    "C44_default_type",
    "C44_unknown_type",
    "C44_listing"
   ],
   "note": "Registrations, creations and listings in any order; the class method load is a parameter."
  },
  {
   "property": "C45",
   "status": "proved",
   "theorems": [
    "C45_direct_uses_the_right_source",
    "C45_inverse_conversions",
    "C45_inverse_altitude",
    "C45_altitudes_of_other_points"
   ],
   "note": "Localization.direct and inverse for every model, elevation, image and requested system; the external conversion and geometric model are arguments."
  },
  {
   "property": "C46",
   "status": "partial",
   "theorems": [
    "C46_inverse_undoes_direct",
    "C46_dtm_in_another_system_refuted"
   ],
   "note": "Round trip proved when the ground result is in the system the inverse call expects; refuted (with a witness) when a DTM in another system is used and no epsg is asked for."
  },
  {
   "property": "C47",
   "status": "partial",
   "theorems": [
    "C47_coloc_composes",
    "C47_lengths_are_checked",
    "C47_coloc_between_images",
    "C47_self_coloc_is_identity",
    "C47_self_coloc_over_foreign_dtm_refuted"
   ],
   "note": "Composition and length checks proved; self-colocation is the identity when the DTM shares the model's system, refuted otherwise."
  },
  {
   "property": "C48",
   "status": "partial",
   "theorems": [
    "C48_window_in_the_file",
    "C48_pixel_region",
    "C48_ground_region",
    "C48_westward_columns_refuted",
    "C48_rotated_image_refuted",
    "C48_outside_region_raises_refuted",
    "C48_window_is_georeferenced",
    "C48_vertical_direction",
    "C48_inverse_transform"
   ],
   "note": "A region in pixels is read exactly; a region in physical space is read exactly for unrotated images whose columns go east. Refuted for westward columns and rotated images (the code only swaps rows), and an index region beyond the last row gives an empty image instead of an exception."
  },
  {
   "property": "C49",
   "status": "partial",
   "theorems": [
    "C49_valid_cells_kept",
    "C49_geoid_height_added",
    "C49_statistic_fills",
    "C49_values_of_the_valid_cells",
    "C49_statistics_within",
    "C49_held_within",
    "C49_default_leaves_no_nodata",
    "C49_no_valid_cell_raises",
    "C49_no_valid_cell_raises_integers",
    "C49_single_row_refuted",
    "C49_integer_mean_refuted",
    "C49_integer_constant_refuted",
    "C49_default_leaves_nan_refuted",
    "C49_constant_default_leaves_nan_refuted"
   ],
   "note": "Valid cells are kept by every strategy (plus the geoid height of their own centre); the other cells hold the announced statistic in a file of floats, and its integer part in a file of integers (refuted there for mean, median and constant; what they hold stays within the bounds). 'No NaN left' is refuted for the default strategy with no nodata value in the file, and for 'constant' with the default fill value. Files of a single row or column are refused. rasterio's fillnodata is an argument assumed to change only masked cells."
  },
  {
   "property": "C50",
   "status": "partial",
   "theorems": [
    "C50_height_modulo_360",
    "C50_same_height_modulo_360",
    "C50_height_is_unique",
    "C50_latitude_beyond_a_pole",
    "C50_positive_first_longitude_refuted"
   ],
   "note": "Proved for global geoids whose first column is at a longitude in [-180, 0]; refuted for a positive first longitude (the code adds the first longitude instead of subtracting it)."
  },
  {
   "property": "C51",
   "status": "partial",
   "theorems": [
    "C51_failure_is_local_refuted",
    "C51_converging_pixels_are_independent_partial"
   ],
   "note": "False of the code: a NaN altitude stops the refinement of the whole batch (C51_failure_is_local_refuted). Proved part: pixels that all have a Newton run do not influence each other."
  },
  {
   "property": "C52",
   "status": "proved",
   "theorems": [
    "C52_rational_schedule_independent",
    "C52_derivates_schedule_independent",
    "C52_single_writer"
   ],
   "note": ""
  },
  {
   "property": "C53",
   "status": "partial",
   "theorems": [
    "C53_batch_always_succeeds_refuted",
    "C53_fails_only_on_the_surface_partial",
    "C53_batch_succeeds_partial"
   ],
   "note": "False of the code: a line of sight lying on the surface at both ends of a cell raises (refuted). Proved otherwise."
  },
  {
   "property": "C54",
   "status": "partial",
   "theorems": [
    "C54_found_between_the_ends_partial",
    "C54_found_between_the_ends_refuted"
   ],
   "note": "False of the code for a line of sight whose last vertex is inside the cube above the surface (refuted). Proved when the last vertex is below the surface or outside."
  },
  {
   "property": "C55",
   "status": "partial",
   "theorems": [
    "C55_surface_point_partial",
    "C55_line_over_the_dtm_is_localized_partial",
    "C55_grid_at_constant_altitude_refuted"
   ],
   "note": "A line of sight that crosses the box of the DTM without meeting the surface gives (0,0,0) (see C20, refuted there). Proved: every other result is NaN or a surface point of the pixel's line of sight between its ends. direct_loc_grid_h always fails (C55_grid_at_constant_altitude_refuted)."
  },
  {
   "property": "C56",
   "status": "partial",
   "theorems": [
    "C56_extent_encloses_the_image_partial",
    "C56_rotated_image_refuted"
   ],
   "note": "Proved for images whose model preserves axes; refuted for a rotated image since only two corners are used."
  },
  {
   "property": "C57",
   "status": "proved",
   "theorems": [
    "C57_extent_of_the_footprint",
    "C57_extent_of_an_affine_camera"
   ],
   "note": "Any pair of point-wise models. The order of the result is latitude, longitude, contrary to the docstring."
  },
  {
   "property": "C58",
   "status": "partial",
   "theorems": [
    "C58_nodes_in_the_footprint_partial",
    "C58_nodes_in_the_footprint_refuted"
   ],
   "note": "Proved with a constant direction and a pixel size of at most one; refuted for larger pixels: the footprint is extended by the step in metres, not in pixels."
  },
  {
   "property": "C59",
   "status": "partial",
   "theorems": [
    "C59_surface_point_partial",
    "C59_batch_is_pointwise",
    "C59_other_system_refuted"
   ],
   "note": "Lines without a vertical segment or a vertex hidden in a cell (as C17); a missed surface gives (0, 0, 0). A DTM in another system always fails: refuted."
  },
  {
   "property": "C60",
   "status": "partial",
   "theorems": [
    "C60_grid_h_nodes",
    "C60_grid_dtm_nodes_partial",
    "C60_grid_dtm_nodes_refuted"
   ],
   "note": "Proved for the constant altitude and when the layers enclose the DTM altitudes with the margin of 1; refuted otherwise: the sampling does not extend the lines of sight."
  },
  {
   "property": "C61",
   "status": "partial",
   "theorems": [
    "C61_number_only_where_covered_partial",
    "C61_outside_is_nan_refuted"
   ],
   "note": "A number is returned only where the raster covers the position up to one pixel after its last column; the exact claim is refuted for regional rasters, to which the wrap column is added too."
  },
  {
   "property": "C62",
   "status": "proved",
   "theorems": [
    "C62_converted_model",
    "C62_files"
   ],
   "note": "rasterio, minidom and float are external; writing a file is taken to succeed."
  },
  {
   "property": "C63",
   "status": "proved",
   "theorems": [
    "C63_pixel_convention"
   ],
   "note": "Parameters that are NaN are left out: rpc_of_params gives no model for them."
  },
  {
   "property": "C64",
   "status": "partial",
   "theorems": [
    "C64_converted_to_geotiff",
    "C64_written_as_rpb",
    "C64_direct_coefficients_refuted"
   ],
   "note": "Holds for every request that does not ask for direct coefficients; C64_direct_coefficients_refuted shows the direct coefficients are lost by the converter. The json output is not a format rpc_reader reads."
  },
  {
   "property": "C65",
   "status": "proved",
   "theorems": [
    "C65_format_is_irrelevant",
    "C65_model_of_the_geometry"
   ],
   "note": "Parameters that are NaN are left out."
  },
  {
   "property": "C66",
   "status": "partial",
   "theorems": [
    "C66_same_result",
    "C66_zero_denominator_fails_the_batch",
    "C66_zero_denominator_refuted",
    "C66_one_altitude_refuted"
   ],
   "note": "Equal on arrays of one size when no denominator is zero at a point of the batch. False of the code otherwise: one zero denominator makes the compiled class fail for the whole batch (C66_zero_denominator_refuted), and it does not broadcast one altitude (C66_one_altitude_refuted)."
  },
  {
   "property": "C67",
   "status": "proved",
   "theorems": [
    "C67_same_model",
    "C67_buildable",
    "C67_loaded"
   ],
   "note": "RPCoptim overwrites the epsg by 4326, like the default of RPC (C67_same_model)."
  },
  {
   "property": "C68",
   "status": "partial",
   "theorems": [
    "C68_pointwise",
    "C68_value",
    "C68_same_result_partial",
    "C68_same_result_direct",
    "C68_mixed_altitudes_refuted"
   ],
   "note": "RPCoptim is pointwise for every batch, and returns the result of Newton for each pixel. Equal to RPC with direct coefficients when no denominator is zero, and with inverse coefficients when the pixels share one altitude and RPC locates them all; false of the code for pixels at different altitudes (C68_mixed_altitudes_refuted)."
  },
  {
   "property": "C69",
   "status": "partial",
   "theorems": [
    "C69_other_system_partial",
    "C69_bounds",
    "C69_default_bounds_refuted",
    "C69_two_pixels_refuted",
    "C69_surface_point_partial",
    "C69_line_over_the_dtm_is_localized_partial"
   ],
   "note": "False of the code in the system 4326 for the default bounds and for several pixels (C69_default_bounds_refuted, C69_two_pixels_refuted). Surface theorem: a missed surface gives an uninitialised position; that a result is between the two ends is proved for the lines of sight over the DTM."
  },
  {
   "property": "C70",
   "status": "proved",
   "theorems": [
    "C70_round_trip",
    "C70_same_intersections",
    "C70_faces_table",
    "C70_fully_initialised",
    "C70_other_sizes_rejected",
    "C70_accepted_states"
   ],
   "note": "The serialization of the state tuple itself (numbers and lists) is Python's and is not modelled."
  },
  {
   "property": "C71",
   "status": "proved",
   "theorems": [
    "C71_ground_points_are_recovered",
    "C71_least_squares",
    "C71_rpc_ground_points_are_recovered"
   ],
   "note": "Stated on the localizations the two models return for the batch, and for two RPC models with Newton's method. The conversion (pyproj) is an argument, assumed to treat the points of an array one by one and to be undone by the opposite conversion at the ground points."
  },
  {
   "property": "C72",
   "status": "proved",
   "theorems": [
    "C72_least_squares",
    "C72_exact",
    "C72_affine_inverse_loc"
   ],
   "note": "np.linalg.inv is an argument that returns an inverse or raises. The model raises where the code goes on with NaN (a sampled position out of range, all longitudes or latitudes equal)."
  },
  {
   "property": "C73",
   "status": "proved",
   "theorems": [
    "C73_nodes",
    "C73_homologous_pixel"
   ],
   "note": "The DTM localization itself is C59 (partial). The exact statement is for destination grids with affine layers; for the others the node is the result of the loop of C38."
  },
  {
   "property": "C74",
   "status": "proved",
   "theorems": [
    "C74_nodes",
    "C74_answers",
    "C74_same_size"
   ],
   "note": "For two rows and columns or more."
  },
  {
   "property": "C75",
   "status": "proved",
   "theorems": [
    "C75_same_row_for_affine_sensors"
   ],
   "note": "Affine sensors and a constant altitude: for other sensors the epipolar lines are curves and the statement is only approximately true. The interpolation outside the grid is the extrapolation of scipy (external)."
  },
  {
   "property": "C76",
   "status": "proved",
   "theorems": [
    "C76_disparity_map_gives_its_ground_points",
    "C76_given_matches_give_their_ground_points"
   ],
   "note": "The two grids are any functions of the epipolar position; C35 and C75 are about the grids themselves."
  },
  {
   "property": "C77",
   "status": "partial",
   "theorems": [
    "C77_whole_steps_partial",
    "C77_zero_step",
    "C77_whole_model_grids_partial",
    "C77_at_most_one_more",
    "C77_fractional_step_refuted",
    "C77_fractional_model_refuted"
   ],
   "note": "Refuted for fractional steps: 15 nodes every 2.3 pixels give 16 coordinates, and a multi-altitude grid with 3 nodes every 0.1 gives 4. Proved for steps that are whole multiples of a power of two (whole pixels, half pixels). In all cases the rectification grid reader finds as many coordinates as nodes or one more. Binary64 operations are those of Flocq; the round trip of the geotransform through the file is external. A step of zero is refused (C77_zero_step)."
  },
  {
   "property": "C78",
   "status": "proved",
   "theorems": [
    "C78_adaptive_grids"
   ],
   "note": "For sensors that handle each point by itself (behaves) and whose first step moves on the ground; the length of a flat step is the geocentric distance computed at the start. Whether the call returns is C33."
  },
  {
   "property": "C79",
   "status": "partial",
   "theorems": [
    "C79_homologous_refuted",
    "C79_homologous_partial"
   ],
   "note": "Refuted on a terrain with one bend of slope -1/2 to 1/2: the right node is interpolated on the segment to the homologous position of the plain step. Proved where the homologous positions of segments are segments, e.g. over a tilted plane for linear sensors."
  },
  {
   "property": "C80",
   "status": "partial",
   "theorems": [
    "C80_plain_size",
    "C80_adaptive_size_refuted",
    "C80_adaptive_size_partial"
   ],
   "note": "Proved with the fixed step. With an adaptive step, refuted without margin on flat ground with a step of 4 pixels (the size counts half a step too many); proved with a margin of at least one node or steps of at most 2 pixels."
  },
  {
   "property": "C81",
   "status": "proved",
   "theorems": [
    "C81_flat_ground"
   ],
   "note": "For sensors that handle each point by itself. The announced size is not part of the statement: it differs (C80)."
  },
  {
   "property": "C82",
   "status": "proved",
   "theorems": [
    "C82_direct_loc_converges",
    "C82_compiled_converges",
    "C82_one_position"
   ],
   "note": "Kantorovich-type condition stated with true partial derivatives over the square; one altitude per batch (C11). Real arithmetic."
  },
  {
   "property": "C83",
   "status": "proved",
   "theorems": [
    "C83_inverse_loc_converges",
    "C83_one_pixel"
   ],
   "note": "The condition bounds the edges of the cells at the altitude; the square around the true pixel must be covered by the nodes (no extrapolation) and in the valid longitude/latitude range. The start of the predictor is a hypothesis. Real arithmetic."
  },
  {
   "property": "C84",
   "status": "proved",
   "theorems": [
    "C84_precision",
    "C84_within",
    "C84_sharp",
    "C84_sensor_precision"
   ],
   "note": "The angle is between unit directions of lines; for sensors it is expressed with the converted end points. Real arithmetic; the conversion is any pointwise function. C84_sharp shows that the factor 1 - c cannot be improved for two lines."
  },
  {
   "property": "C85",
   "status": "partial",
   "theorems": [
    "C85_rounding_error",
    "C85_nearly_between_samples",
    "C85_exact_at_nodes",
    "C85_between_samples_refuted"
   ],
   "note": "Proved: the error bound, exactness at the nodes, and the samples exceeded by at most 2^-48 M. Refuted: staying between the samples; on a raster that is 100 everywhere the interpolated value at a position computed by the library exceeds 100 (C85_between_samples_refuted). M between 2^-900 and 2^1000 (no overflow, no relative underflow). Positions outside of the raster (extrapolation) are not covered."
  },
  {
   "property": "C86",
   "status": "partial",
   "theorems": [
    "C86_top_entry_refuted",
    "C86_entry_test_partial",
    "C86_crossing_error"
   ],
   "note": "Refuted: on a terrain flat at 100 m the line of sight from (0, 0, 103) to (2, 2, 98) crosses the top face at an interior position, at altitude exactly 100, where the interpolated altitude is 100.00000000000001, so that it is refused and the answer is NaN (C86_top_entry_refuted). Proved: only positions within 2^-48 M of the surface can be wrongly refused, and none below it by more than 2^-47 M is accepted (C86_entry_test_partial). The crossing of the top face is computed within 12 x 2^-53 of the size of the coordinates (C86_crossing_error). Only the crossing of the top face and the first test of the intersection are modelled in binary64."
  },
  {
   "property": "C87",
   "status": "partial",
   "theorems": [
    "C87_surface_point_partial",
    "C87_line_over_the_dtm_is_localized_partial",
    "C87_optim_surface_point_partial",
    "C87_height_between_the_corners_refuted"
   ],
   "note": "Refuted: on a flat DTM whose heights are 0 at the four corners and 19 m inside, the pixel sees a point of the DTM and is not localized (C87_height_between_the_corners_refuted). Proved, when the heights at the ends of the lines of sight are within less than a metre of the range of the heights of the corners: the ends are above and below all the DTM and each position is NaN, (0, 0, 0) (see C20), or a surface point between them, for RPC and for RPCoptim; a line of sight over the DTM is localized (RPC). RPCoptim: the abscissa between the ends and the uninitialised positions as in C69."
  },
  {
   "property": "C88",
   "status": "proved",
   "theorems": [
    "C88_rounding_error",
    "C88_pixel_error",
    "C88_two_evaluations",
    "C88_degree_error",
    "C88_source_orders"
   ],
   "note": "The set of the possible results is an inductive relation (FloatRpcModel.v): any tree of correctly rounded additions, products and fused operations whose expansion is the polynomial, and any of the forms of num / den * scale + offset. General bound in C88_rounding_error, the figures of the statement in the others; C88_source_orders shows that the two sources are among the evaluations. Flush to zero and approximate inverses are not in the relation."
  },
  {
   "property": "C89",
   "status": "partial",
   "theorems": [
    "C89_left_node_refuted",
    "C89_adaptive_step_size_refuted"
   ],
   "note": "With constant steps: each node is computed as if alone (C89_nodes_are_independent), the size is kept and the right position of an unlocalized node is NaN (C89_node_without_ground). Refuted for the left grid: compute_epipolar_angle returns 0 for NaN ends, so the left position stays finite and goes on along a row or column of the image, off the epipolar line (C89_left_node_refuted). Refuted for adaptive steps: when the first step of all nodes ends without ground, the strip stops at two columns whatever the size (C89_adaptive_step_stops, C89_adaptive_step_size_refuted). The models are abstract: any model that answers point by point and maps NaN to NaN."
  },
  {
   "property": "C90",
   "status": "partial",
   "theorems": [
    "C90_constructor",
    "C90_accesses",
    "C90_no_cells",
    "C90_empty_refuted",
    "C90_one_line",
    "C90_line_of_sight_partial",
    "C90_in_the_surface_refuted",
    "C90_batch",
    "C90_other_arrays_refuted",
    "C90_one_row_refuted"
   ],
   "note": "Every access at a computed index is checked in the model. The constructor is safe and its tables are the expected ones (C90_constructor). For tables of at least 2 x 2 and any polyline, the call gives the result of the model without buffers and its only undefined behaviour is a part of what that model reports as a failure (C90_one_line); for two-point lines of sight that do not enter the box exactly on the surface, under the conditions of C21, it returns (C90_line_of_sight_partial); the array is read and the result laid out as announced, and the call ends as one of its lines of sight does (C90_batch). Refuted: a line of sight in the surface converts a NaN to an index (C90_in_the_surface_refuted), a table of one row is read before its beginning (C90_one_row_refuted), an array without vertices or with two coordinates is read outside (C90_other_arrays_refuted). The accesses are the ones of a buffer (C90_accesses); a table without rows or without columns throws (C90_no_cells), a table with neither is read outside (C90_empty_refuted). Not modelled: overflow of the conversions of a double to an int, integer overflow of the sizes, NaN in the inputs."
  },
  {
   "property": "C91",
   "status": "partial",
   "theorems": [
    "C91_complete_rpb",
    "C91_complete_json",
    "C91_other_files",
    "C91_interrupted_rpb",
    "C91_interrupted_json",
    "C91_old_file_refuted"
   ],
   "note": "Every open and write is a step and an execution stops between two steps or inside of a write. The complete execution is the writer of C41/C42 (C91_complete_rpb, C91_complete_json). At every stop, the other files are unchanged (C91_other_files), an RPB file that describes RPCs describes the exported ones (C91_interrupted_rpb) and a JSON file is old, complete or without closing brace (C91_interrupted_json). Refuted: the target may be neither the old nor the new file, the old one is emptied first (C91_old_file_refuted). Not modelled: the update of a geotiff by rasterio, reordering of the writes by the file system."
  },
  {
   "property": "C92",
   "status": "partial",
   "theorems": [
    "C92_geoid_call",
    "C92_geoid_same_places",
    "C92_geoid_again",
    "C92_geoid_untouched_refuted",
    "C92_displacement_call",
    "C92_displacement_untouched_refuted",
    "C92_displacement_same_array_refuted",
    "C92_check_lonlat",
    "C92_inverse_inputs"
   ],
   "note": "Arrays are objects in a store and the assignments of the code act on it. Refuted: the geoid call replaces the longitudes of the caller (C92_geoid_untouched_refuted), the displacement call replaces the positions of the caller (C92_displacement_untouched_refuted) and, given one array for both grids, subtracts the nominal positions twice (C92_displacement_same_array_refuted). Proved: after any calls the positions are the same modulo whole turns (C92_geoid_same_places), a second call gives the same heights (C92_geoid_again), the displacements are right for two arrays and other arrays do not change (C92_displacement_call), the filter changes exactly the positions that are not on the Earth (C92_check_lonlat), and the inverse localizations filter a copy (C92_inverse_inputs). Only the functions that assign to arrays of their caller are modelled this way; the other ones are functions in the models of the other properties, after a reading of their assignments."
  },
  {
   "property": "C93",
   "status": "partial",
   "theorems": [
    "C93_strip",
    "C93_stays_inside",
    "C93_only_these_shapes",
    "C93_same_as_python",
    "C93_positions_untouched_refuted"
   ],
   "note": "The function is modelled on flat buffers with checked accesses; the arrays of the caller are objects of a store. Proved: with the documented shapes every access is inside and the buffers hold the strips (C93_strip, C93_stays_inside), the values are those of the Python function for models that handle each point by itself (C93_same_as_python). Refuted: the shapes are not checked, a call that returns had a documented shape, a positive size and enough angles and positions, so every other shape is an access outside (C93_only_these_shapes); the arrays of starting positions end with the last points of the strips (C93_strip, C93_positions_untouched_refuted). Overflows of int are not modelled."
  },
  {
   "property": "C94",
   "status": "partial",
   "theorems": [
    "C94_inverse_inside",
    "C94_inverse_only",
    "C94_direct_inside",
    "C94_direct_only",
    "C94_class_direct",
    "C94_class_inverse_partial",
    "C94_unset_coefficients_refuted",
    "C94_dtm_vectors",
    "C94_own_altitude_refuted"
   ],
   "note": "The loops are modelled with checked reads. Proved: the reads of the inverse and direct localization of vectors are inside, and the result is the one of the computation, when there is an altitude and every NaN point has an altitude of its own (C94_inverse_inside, C94_direct_inside); a call that returns had this and the coefficients (C94_inverse_only, C94_direct_only). RPCoptim.direct_loc_h gives only such vectors (C94_class_direct), and so does RPCoptim.inverse_loc with inverse coefficients (C94_class_inverse_partial). Refuted: without inverse coefficients RPCoptim.inverse_loc does not raise, it uses members the constructor has not set (C94_unset_coefficients_refuted); with fewer rows than columns every point is located at the first altitude (C94_own_altitude_refuted); the vector direct_loc_dtm reads as many columns as there are rows (C94_dtm_vectors)."
  },
  {
   "property": "C95",
   "status": "partial",
   "theorems": [
    "C95_json_back",
    "C95_json_interrupted",
    "C95_own_reader_refuted"
   ],
   "note": "A reader of JSON is written in JsonSpec.v, independently of the writer. Proved: the text is an object that holds the model and only it (C95_json_back); a writer that stops leaves the old file, the complete one, or a text the reader refuses (C95_json_interrupted). Refuted: rpc_reader raises ValueError on every json or rpb text the writer makes, for every model (C95_own_reader_refuted); rpb files are only read through the image beside them, by rasterio. Assumed of the printing of numbers: the text is made of the characters of numbers and is read back as the number."
  },
  {
   "property": "C96",
   "status": "partial",
   "theorems": [
    "C96_walk_ends",
    "C96_only_the_refinement",
    "C96_refinement_ends",
    "C96_usual_terrain_partial",
    "C96_unfilled_nodata_refuted"
   ],
   "note": "Binary64 model of the whole intersection. Proved: the walk over the cells ends after at most rows x columns moves for all finite segments, whatever the rounding (C96_walk_ends); with enough iterations of the two outer loops only the refinement inside of a cell can still be running (C96_only_the_refinement); on altitudes between -16384 and 16384 m the refinement returns a point after at most 2^33 iterations when the line of sight goes down through the surface in the cell, by more than 2^-20 m (C96_refinement_ends), so that a call that does not end has met a cell where this is not so (C96_usual_terrain_partial). Refuted: next to an altitude of -3.4e38 (missing data of single precision left in the DTM) the refinement comes back to the same state for ever (C96_unfilled_nodata_refuted). Missing: which lines of sight never enter a cell below the surface (C18 shows that some do)."
  },
  {
   "property": "C97",
   "status": "partial",
   "theorems": [
    "C97_on_the_surface",
    "C97_exact_surface",
    "C97_point_of_a_cell",
    "C97_infinite_point_refuted"
   ],
   "note": "Proved on the binary64 model of the whole intersection: the altitude of the point is the interpolated one up to 0.1 mm and a last bit whenever the numbers are finite (C97_on_the_surface); for altitudes between -16384 and 16384 m it is the exact bilinear surface up to 2e-9 m more (C97_exact_surface); where the line of sight goes down through the surface in a cell by more than 2^-20 m, the point is finite and at most one cell outside of the raster (C97_point_of_a_cell). Refuted: a line of sight that grazes the surface at the entry of a cell and leaves it on the surface gives infinite coordinates as a found point (C97_infinite_point_refuted)."
  },
  {
   "property": "C98",
   "status": "partial",
   "theorems": [
    "C98_entry",
    "C98_walk",
    "C98_refined_point",
    "C98_on_the_line_partial"
   ],
   "note": "Proved on the binary64 model: the entry is exactly in the box, and on a segment up to 1e-9, with the right number (C98_entry); every position of the walk between -2^18 and 2^18 is on the line of the segment (C98_walk); the refined point keeps on the line up to 1.01 times the error of the two ends and 1e-9 for each iteration, where the line goes down through the surface by more than 2^-20 m (C98_refined_point); all together for the point of a whole line of sight (C98_on_the_line_partial). Missing: cells entered below the surface or touched only (false in general, C97_infinite_point_refuted), vertical segments (false in general, C17_vertical_segment_refuted), positions of the walk that are far outside of the DTM."
  },
  {
   "property": "C99",
   "status": "proved",
   "theorems": [
    "C99_cell_not_skipped",
    "C99_walked_segment",
    "C99_not_found",
    "C99_first_cell",
    "C99_next_cell"
   ],
   "note": "On the binary64 model, for altitudes between -16384 and 16384 m: C99_cell_not_skipped, C99_walked_segment and C99_not_found (the positions are in the current cell up to 1e-9 cell and at most one cell apart), C99_first_cell, C99_next_cell. That the first point along the line is the one that is returned is C19 and C22, in exact arithmetic."
  },
  {
   "property": "C100",
   "status": "proved",
   "theorems": [
    "C100_index_to_physical",
    "C100_physical_to_index",
    "C100_index_round_trip",
    "C100_physical_round_trip"
   ],
   "note": "On the binary64 model (north-up transforms; the inverse as the affine library and the C++ constructor compute it): C100_index_to_physical, C100_physical_to_index, C100_index_round_trip, C100_physical_round_trip. C100_not_exact: the last bits do change. In exact arithmetic and with rotation: C05."
  },
  {
   "property": "C101",
   "status": "proved",
   "theorems": [
    "C101_ground_on_the_surface",
    "C101_intersection"
   ],
   "note": "On the binary64 model of the whole call: C101_ground_on_the_surface, for altitudes between -16384 and 16384 m, cells between 1e-9 and 1e9, at most 2.5e8 cells to the origin. C101_intersection: the vertices that are intersected are the given ones in indices (within the rounding of C100, at the same altitudes), and the answer is the outcome of the intersection, back in physical coordinates. The case without intersection returns zeros (C20). C101_found and C101_near: concrete lines of sight meet the hypotheses."
  },
  {
   "property": "C102",
   "status": "partial",
   "theorems": [
    "C102_same_ground_position",
    "C102_same_ground_position_refuted"
   ],
   "note": "C102_same_ground_position: the same bits, for every line of sight whose first vertex is in none of the planes of the faces of the box and of which no segment goes down from a line between cells; where Python misses the surface and gives (0, 0, 0), C++ gives an uninitialised point. Without the last condition the statement is false (C102_same_ground_position_refuted: C++ starts in the wrong cell and misses the ground); a first vertex in the plane of a face is the throw of C++ in C21."
  },
  {
   "property": "C103",
   "status": "proved",
   "theorems": [
    "C103_batch",
    "C103_one_altitude",
    "C103_compiled",
    "C103_near_the_ground_position",
    "C103_two_versions"
   ],
   "note": "C103_one_altitude (Python, batches with NaN pixels), C103_compiled (C++), C103_near_the_ground_position and C103_two_versions (with the conditions of C82). C103_batch: with an altitude per pixel the residues of the start are those of the first altitude (cf. C11), so a position may instead be the start, seen at the first altitude. The corrections of the iterations are any numbers in the model, so the statements do not depend on the derivatives; that the loop does reach its precision is C82, in real numbers. C103_case and C103_square: concrete models meet the hypotheses."
  },
  {
   "property": "C104",
   "status": "proved",
   "theorems": [
    "C104_compiled",
    "C104_one_altitude",
    "C104_batch",
    "C104_results"
   ],
   "note": "C104_compiled (C++, each pixel) and C104_one_altitude (Python, batches at one altitude). The hypotheses are in FloatConvSpec.v: the square around the ground point that contains the offsets is in the domain of the model (so the ground point is in the central half of it) and is well conditioned (C82) with explicit numbers. The polynomials and their derivatives are evaluated in any order; the quotient rule and the 2x2 system are those of the source, fused or not, with a division or a product by an inverse. C104_batch: with several altitudes in a Python batch the first residues are those of the first altitude, so one more iteration may be needed (seven), and a pixel that these residues satisfy keeps the start (C11, C103_batch). C104_results: the calls have results; C104_case: a model with a quadratic term meets the hypotheses."
  },
  {
   "property": "C105",
   "status": "proved",
   "theorems": [
    "C105_in_range",
    "C105_prolonged",
    "C105_no_pixel",
    "C105_compiled_in_range",
    "C105_compiled_prolonged",
    "C105_results"
   ],
   "note": "C105_in_range, C105_prolonged and C105_no_pixel (Python, batches); C105_compiled_in_range and C105_compiled_prolonged (C++). Built on C104. In the Python version the lowest end of a pixel whose line at the highest altitude already goes through the start of the iterations is that start (start_stays, the bug of C11/C103): the theorems say so. The conversion to another reference system (rpc.py 618-619) is not modelled here. C105_results: the calls have results, with two rows for each pixel; C105_case: a model and a pixel that meet the hypotheses, in range and prolonged."
  },
  {
   "property": "C106",
   "status": "proved",
   "theorems": [
    "C106_on_the_ground",
    "C106_compiled",
    "C106_no_pixel",
    "C106_results"
   ],
   "note": "C106_on_the_ground and C106_no_pixel (Python, batches); C106_compiled (C++; the part about the surface under the hypotheses of C102). Composition of C105 (ends of the lines of sight), C101 (positions on the surface) and C102 (C++ and Python agree). The DTM is in the system of the model (4326): the conversion of the lines of sight is not modelled. A missed surface stays (0, 0, 0) in Python and an uninitialised point in C++ (C102). C106_results: the calls have results, one for each pixel; C106_case: a model, a pixel and a DTM that meet the hypotheses, and whose line of sight is found on the surface by both versions."
  },
  {
   "property": "C107",
   "status": "proved",
   "theorems": [
    "C107_in_the_file",
    "C107_window",
    "C107_georeference",
    "C107_coordinates"
   ],
   "note": "C107_in_the_file, C107_window, C107_georeference; C107_coordinates (coordinates of the pixels of the opened image, with the vertical direction asked for). The window_transform of rasterio (external) is modelled from its documented formula. C107_case: a region partly out of a file, given in both directions, and a region out of the file."
  },
  {
   "property": "C108",
   "status": "partial",
   "theorems": [
    "C108_heights_partial",
    "C108_has_a_height",
    "C108_beyond_a_pole",
    "C108_first_meridian_refuted",
    "C108_pole_refuted"
   ],
   "note": "Refuted on the first meridian of the geoid (C108_first_meridian_refuted: pixels of 0.3 degree and a first column at the longitude 0: the column of the longitude 0 is computed as -5.6e-17 and the height is a NaN) and at a pole (C108_pole_refuted: pixels of ten minutes written with sixteen digits; the first row is on the pole within 1e-12 cell, and the heights of the pole are NaN). Proved: C108_heights_partial, the heights are the bilinear ones up to rounding errors, and the only positions with a NaN are within two billionths of a degree of the first meridian or on the limits of the rows; C108_has_a_height, a position out of these places has a height; C108_beyond_a_pole. The formula of scipy inside the raster is an argument, assumed to be the bilinear interpolation with a bounded error. First columns at positive longitudes: see C50. C108_case: the hypotheses hold for this geoid, and three equivalent longitudes have the same height."
  },
  {
   "property": "C109",
   "status": "proved",
   "theorems": [
    "C109_altitudes",
    "C109_beyond_a_pole"
   ],
   "note": "C109_altitudes; C109_beyond_a_pole (a DTM with a row beyond a pole is refused). The heights are the ones of C108 (with its exceptions: NaN only on the first meridian of the geoid and on the limits of its rows). DTMs in another system than 4326 are converted by an external library: not modelled here, see C49. C109_case: a DTM with an invalid cell and the geoid of C108."
  }
 ]
}
