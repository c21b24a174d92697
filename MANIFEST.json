{
 "claims": [
  {
   "property": "C01",
   "status": "proved",
   "theorems": [
    "C01_dictionary_indexing_best_matches",
    "C01_scores_independent_of_batch_size",
    "C01_outcome_exists",
    "C01_scores_below_placeholder_refuted"
   ],
   "note": "Scores are integers (every finite float is one on a common scale). The bound 'scores above -1' is needed: see the _refuted theorem."
  },
  {
   "property": "C02",
   "status": "partial",
   "theorems": [
    "C02_smaller_is_better_refuted",
    "C02_single_pass_returns_largest",
    "C02_depends_on_batch_size_refuted"
   ],
   "note": "The property is false of the code: the sign is ignored when matches are chosen within a batch. Refuted for every non-constant score row in one pass."
  },
  {
   "property": "C03",
   "status": "proved",
   "theorems": [
    "C03_navigation_mask_selects_points",
    "C03_masked_run_agrees_with_unmasked"
   ],
   "note": ""
  },
  {
   "property": "C04",
   "status": "proved",
   "theorems": [
    "C04_default_footprint",
    "C04_neighbours_of_footprint",
    "C04_mean_of_shared_indices",
    "C04_normalized",
    "C04_bounds",
    "C04_order_of_indices_irrelevant",
    "C04_layers_are_single_maps",
    "C04_rejected_and_layer_count"
   ],
   "note": "Maps with two navigation axes (with one, the code raises an IndexError); rounding to float32 is not modelled. Points without neighbours get nan."
  },
  {
   "property": "C05",
   "status": "partial",
   "theorems": [
    "C05_single_map_refuted",
    "C05_single_map_default_refuted",
    "C05_best_map",
    "C05_not_indexed_without_masks",
    "C05_phase_of_point_partial",
    "C05_renamed_phase_of_point_partial",
    "C05_phase_names_differ",
    "C05_not_indexed_with_masks_refuted",
    "C05_uncovered_point_refuted",
    "C05_single_point_refuted",
    "C05_repeated_phase_refuted"
   ],
   "note": "Every merged point comes from the first map with the best mean score among the maps that have it; without masks the not-indexed points are exactly those indexed nowhere; with distinct phase names its phase is that map's. Refuted: with masks no point is ever marked not indexed, a point outside all maps raises, one-point maps with several scores raise, a single map with several scores raises or loses the points whose first score is not the best (the documentation asks for two maps), repeated phases give inconsistent IDs."
  },
  {
   "property": "C06",
   "status": "proved",
   "theorems": [
    "C06_merged_scores_and_indices"
   ],
   "note": "For maps with at least one point each: the index ranges of the maps are disjoint after shifting, and each point lists all scores with their shifted indices, best first."
  },
  {
   "property": "C07",
   "status": "proved",
   "theorems": [
    "C07_uniform_patterns_match",
    "C07_score_iff",
    "C07_scores_are_the_documented_coefficients",
    "C07_scores_shape",
    "C07_ncc_bounded",
    "C07_ndp_bounded",
    "C07_ndp_of_nonnegative_patterns",
    "C07_all_scores_bounded",
    "C07_objective_is_one_minus_pearson_and_bounded",
    "C07_constant_pattern_has_no_score"
   ],
   "note": "Real arithmetic."
  },
  {
   "property": "C08",
   "status": "proved",
   "theorems": [
    "C08_scores_ignore_contrast_and_brightness",
    "C08_pearson_affine",
    "C08_self_match_is_one",
    "C08_match_up_to_contrast_is_best",
    "C08_rescale_does_not_change_objective",
    "C08_objective_ignores_contrast_and_brightness"
   ],
   "note": "Real arithmetic."
  },
  {
   "property": "C09",
   "status": "proved",
   "theorems": [
    "C09_to_bruker_keeps_position",
    "C09_conventions_inverse",
    "C09_detector_reports_given_pcs",
    "C09_between_conventions",
    "C09_documented_names_accepted",
    "C09_names_case_insensitive"
   ],
   "note": "Real arithmetic. Specification: the documented meaning of each convention as a position in microns."
  },
  {
   "property": "C10",
   "status": "proved",
   "theorems": [
    "C10_pixel_gnomonic_inverse",
    "C10_to_gnomonic_is_geometric",
    "C10_anchors",
    "C10_arrays_round_trip"
   ],
   "note": "Real arithmetic; array shapes for 1D navigation."
  },
  {
   "property": "C100",
   "status": "partial",
   "theorems": [
    "C100_points_drawn",
    "C100_refused_iff",
    "C100_intensities_of_directions",
    "C100_corners_in_the_other_half",
    "C100_simulated_master_pattern",
    "C100_zeros_above_refuted",
    "C100_one_hemisphere_partial",
    "C100_one_hemisphere_refuted"
   ],
   "note": "Refuted: where the upper hemisphere is zero, the pixel of the lower hemisphere is not drawn either, although it is inside the equator and not zero; with one hemisphere of a centrosymmetric phase, the lower half is the mirror image of the upper half and not its inverse, which is right only if the intensity is also the same after a rotation by 180 degrees about the pole. Pixels outside of the circle which are not zero are drawn in the other half."
  },
  {
   "property": "C101",
   "status": "partial",
   "theorems": [
    "C101_lines",
    "C101_bands",
    "C101_sphere_curves",
    "C101_sphere_mesh",
    "C101_over_an_existing_sphere",
    "C101_refused_iff",
    "C101_needs_only_what_it_shows",
    "C101_unknown_backend_refuted",
    "C101_line_is_the_plane",
    "C101_circles_are_band_edges",
    "C101_opposite_reflectors"
   ],
   "note": "Refuted: a backend which is not documented is taken as PyVista instead of being refused. A reflector and its opposite are drawn as the same circles, one on top of the other. The circles drawn by orix and the sorting by NumPy are assumed, stated in the model."
  },
  {
   "property": "C102",
   "status": "partial",
   "theorems": [
    "C102_only_relatives_change",
    "C102_make_circular",
    "C102_window_of_array_changes_it_refuted",
    "C102_new_window_one_axis",
    "C102_new_window_two_axes",
    "C102_new_circular_window",
    "C102_circular_with_one_axis_refuted",
    "C102_three_axes_refuted",
    "C102_small_shapes_refused",
    "C102_shape_of_custom_window_refuted",
    "C102_window_of_array",
    "C102_derived_windows",
    "C102_circular_windows_are_discs",
    "C102_part_of_circular_window_refuted",
    "C102_shape_compatible",
    "C102_shape_compatible_fewer_axes",
    "C102_shape_compatible_one_axis",
    "C102_shape_compatible_more_axes_refuted",
    "C102_plot",
    "C102_plot_refused_iff",
    "C102_plot_without_values"
   ],
   "note": "Refuted: a window of an array shares its memory, so that make_circular on it sets elements of the array to zero (arrays that are not related by views stay); slices and reshaped parts of a circular window say they are circular without being so, and a window made of a circular one does not; Window('circular') with one axis is named rectangular; three axes or more are taken as the first one; the shape is checked for custom windows though documented as not used; shape_compatible raises an error for data with more axes than a window of two axes."
  },
  {
   "property": "C103",
   "status": "partial",
   "theorems": [
    "C103_mask_of_other_size",
    "C103_each_point_with_its_own",
    "C103_as_one_by_one",
    "C103_prepared",
    "C103_columns",
    "C103_no_operators_refuted",
    "C103_default_chunks",
    "C103_callers_options_refuted",
    "C103_later_call_refuted",
    "C103_bytes_refuted",
    "C103_bytes",
    "C103_declined_rechunking_refuted"
   ],
   "note": "The optimizer is a function of its arguments; pixels are in one chunk. Refuted: a dictionary of chunk options given by the caller is changed by the call, and a later call with it uses the chunk size of the earlier; chunk_bytes has no effect unless chunk_shape is given as None; patterns in several chunks are rechunked, and options used, also if rechunking is declined; an empty set of pseudo-symmetry operators makes reading the results fail after they are computed."
  },
  {
   "property": "C104",
   "status": "partial",
   "theorems": [
    "C104_crop_map_patterns",
    "C104_inav",
    "C104_inav_crystal_map_partial",
    "C104_inav_step_crystal_map_refuted",
    "C104_inav_reversed_crystal_map_refuted",
    "C104_isig",
    "C104_isig_detector_partial",
    "C104_isig_step_refuted",
    "C104_isig_reversed_refuted",
    "C104_isig_bounded_step_refuted",
    "C104_isig_then_inav_refuted",
    "C104_isig_line_scan_refuted",
    "C104_crop_map",
    "C104_crop_rows",
    "C104_crop_columns",
    "C104_crop_detector_values_refuted",
    "C104_crop_map_values_refuted",
    "C104_crop_map_values_one_pc_refuted",
    "C104_arguments",
    "C104_arguments_missing"
   ],
   "note": "HyperSpy's conversion of indices and values to slices of the data, and orix' slicing of crystal maps, are stated in the model. Proved for all selections: patterns, PCs, background, pixels; for selections forwards without steps and for single indices: crystal map; for ranges between two places without steps: detector. Refuted: steps along the map give a crystal map of another shape, and reversing leaves it as it is; steps along the detector leave the PCs, or give a detector of another shape; reversed rows are not reversed on the detector; after isig of a map with one PC single patterns outside the first row cannot be selected, and a line scan's PCs are lost or not selected; crop() with values loses the PCs and leaves the background, or raises after the patterns are cropped, or leaves the crystal map."
  },
  {
   "property": "C105",
   "status": "partial",
   "theorems": [
    "C105_map",
    "C105_pixels",
    "C105_map_changed",
    "C105_detector",
    "C105_new_shape",
    "C105_new_shape_as_factors",
    "C105_size_kept_iff",
    "C105_gnomonic_kept_iff",
    "C105_gnomonic_kept_new_shape",
    "C105_intensity_kept",
    "C105_same_shape_refuted",
    "C105_same_shape_coordinates_refuted",
    "C105_out_refuted"
   ],
   "note": "HyperSpy's rebin (weights, sizes, order of arguments, out) is stated in the model, in real numbers. Proved: sums, sizes, background, PCs and crystal map, new shape as factors, total intensity. Proved as equivalences, so that the claim holds in one direction only in these cases: size kept if and only if the binning becomes the same integer in both directions; gnomonic coordinates kept if and only if the factors are the same and nothing is left over. Refuted: factors which leave all sizes as they were change the patterns and nothing else, so that coordinates and background no longer fit; with out, the detector, background and crystal map of out are left as they were."
  },
  {
   "property": "C106",
   "status": "partial",
   "theorems": [
    "C106_given_twice_iff",
    "C106_accepted_iff",
    "C106_letter_case",
    "C106_scipy",
    "C106_nlopt",
    "C106_other_options",
    "C106_given_twice",
    "C106_reported",
    "C106_all_reported",
    "C106_trust_region_printed_iff",
    "C106_trust_region_as_given_partial",
    "C106_trust_region_array_refuted",
    "C106_bounds_without_trust_region_refuted"
   ],
   "note": "Proved but for two things. Refuted: a trust region given as an array to refine_orientation_projection_center() is printed in radians, as it was converted in place; without a trust region, None is printed, but differential_evolution, dual_annealing and shgo get bounds which are all zero. Bounds among the keyword arguments of minimize() are printed although those of the trust region replace them (C106_scipy, and the exception in C106_reported); for the global methods they end in a TypeError after printing (C106_given_twice)."
  },
  {
   "property": "C107",
   "status": "partial",
   "theorems": [
    "C107_compared_places",
    "C107_best_at_its_place",
    "C107_other_places_refuted",
    "C107_cut_differently_refuted",
    "C107_masks_accepted_iff",
    "C107_masked_points",
    "C107_masks_keep_places",
    "C107_rotations_per_point",
    "C107_positions",
    "C107_positions_kept_iff_refuted",
    "C107_positions_of_line_kept_iff"
   ],
   "note": "Proved: without masks, places are counted in the smallest rectangle with the points of each map; for maps whose rectangles agree, each merged point is the first best at its place of the sample; masks of the places left out keep places. Refuted: maps with rectangles of one size in different places are merged, and points of different places compared; maps cut to different sizes are refused although they have common places; the merged map starts at the origin and the steps along rows and columns are exchanged, so positions are kept if and only if the rectangle starts in the first row and column and both steps agree. CrystalMap.shape and slices of orix are stated in the model."
  },
  {
   "property": "C108",
   "status": "partial",
   "theorems": [
    "C108_entries",
    "C108_shape_of_layers",
    "C108_shape_of_map_refuted",
    "C108_line_scan_refuted",
    "C108_one_index_refuted",
    "C108_accepted_iff",
    "C108_cut_map",
    "C108_points_left_out_refuted"
   ],
   "note": "Proved: each value is that of C04 for its place, the accepted arguments, and that maps cut to a full rectangle have the points in their places. Refuted: the array has the shape of the map if and only if the latter has more than one row and more than one column, as axes of length 1 are removed; line scans, maps with a point left out inside their rectangle, and maps with one index per point without an axis for it (keep_n=1 with a mask) are refused."
  },
  {
   "property": "C109",
   "status": "partial",
   "theorems": [
    "C109_which_scores_are_missing",
    "C109_all_numbers",
    "C109_outcome_exists",
    "C109_one_pass",
    "C109_unscored_entry_is_best_refuted",
    "C109_batches_report_numbers",
    "C109_flat_pattern_in_batches_refuted",
    "C109_batch_with_unscored_is_skipped_refuted",
    "C109_all_matches_lost_refuted",
    "C109_clean_batches_are_searched",
    "C109_batch_size_matters_refuted"
   ],
   "note": "Proved: when a score is missing (over the reals), that without missing scores the result is that of C01 to C03, exactly what is reported in one pass, that in batches only numbers are reported, and that a batch without missing scores is searched fully. Refuted: in one pass, an entry without a score is the best match of every pattern; in batches with keep_n=1, a batch with such an entry is skipped, and a flat pattern is reported as matching entry 0 with score -1. Rests on NumPy sorting NaN last and Dask's topk reversing that order; rounding of the mean is not modelled."
  },
  {
   "property": "C11",
   "status": "partial",
   "theorems": [
    "C11_crop_keeps_gnomonic_coordinates",
    "C11_crop_shape_and_attributes",
    "C11_crop_keeps_binning",
    "C11_crop_keeps_fractional_binning_refuted",
    "C11_crop_succeeds",
    "C11_crop_composes",
    "C11_crop_keeps_2d_navigation_shape",
    "C11_crop_keeps_twist_refuted",
    "C11_crop_keeps_1d_navigation_shape_refuted"
   ],
   "note": "Everything except: twist is set to 0, a 1D navigation shape (n,) becomes (1, n) and a binning factor which is not whole is cut to an integer (all refuted for every crop)."
  },
  {
   "property": "C110",
   "status": "partial",
   "theorems": [
    "C110_accepted_iff",
    "C110_one_point_without_scores_refuted",
    "C110_chosen_map",
    "C110_all_numbers",
    "C110_flat_pattern_stops_merging_refuted",
    "C110_flat_pattern_in_batches_refuted"
   ],
   "note": "Proved: merging goes on if and only if every point has a score in some map, which map is then chosen, and agreement with C05 when no score is missing. Refuted: one point without scores stops the merging of all; after dictionary indexing in one pass one flat pattern is enough; after indexing in batches it is taken as a match of the first map instead. Only the choice of the map is modelled here; the rest of the merged map is in C05 and C107."
  },
  {
   "property": "C111",
   "status": "partial",
   "theorems": [
    "C111_dynamic_subtract_iff",
    "C111_scaled_subtract_iff",
    "C111_static_divide_iff",
    "C111_static_subtract_iff",
    "C111_rescale_iff",
    "C111_rescale_range_iff",
    "C111_percentiles_iff",
    "C111_mostly_dark_pattern_refuted",
    "C111_relative_iff",
    "C111_normalize_iff",
    "C111_subtract_iff",
    "C111_divide_iff",
    "C111_divide_by_scaled_background_refuted",
    "C111_pattern_is_background_refuted",
    "C111_dynamic_flat_refuted"
   ],
   "note": "Proved: exactly when all intensities are lost, and that otherwise the result is the one of C23, C64 and C24. Refuted: flat patterns, patterns mostly of one dark intensity with percentiles, patterns equal to the background but for brightness and contrast, and, dividing by a scaled static background, every pattern with smallest intensity 0. Real arithmetic; a pixel divided by 0 is taken to lose its intensity in all pixels of the pattern, which in the code may also become the lower limit; what Numba with fastmath gives for NaN is not specified."
  },
  {
   "property": "C112",
   "status": "partial",
   "theorems": [
    "C112_accepted_iff",
    "C112_downsample_iff",
    "C112_repeating_pattern_refuted",
    "C112_one_pixel_refuted"
   ],
   "note": "Proved: which factors are accepted, and that a pattern loses all intensities exactly if all its blocks are equally bright and is otherwise downsampled as in C22. Refuted: patterns that repeat from block to block lose their contrast, and every pattern downsampled to one pixel is lost. Real arithmetic; what Numba with fastmath gives for 0/0 is not specified."
  },
  {
   "property": "C113",
   "status": "partial",
   "theorems": [
    "C113_score_iff",
    "C113_flat_pattern_refuted",
    "C113_flat_pattern_keeps_start",
    "C113_chosen_variant",
    "C113_perfect_variant_lost_refuted",
    "C113_flat_pattern_stops_merging_refuted"
   ],
   "note": "Proved: a refined point has no score exactly if its pattern or the simulated pattern is flat, otherwise the score is their correlation; which variant is chosen. Refuted: a flat pattern never gets a score, a variant without a score wins over one that fits perfectly, and one flat pattern makes merging of the refined maps of several phases fail. The optimiser and simulation are parameters. Real arithmetic; what Numba with fastmath gives for 0/0 is taken to be NaN."
  },
  {
   "property": "C114",
   "status": "partial",
   "theorems": [
    "C114_averaged_iff",
    "C114_averaged_when",
    "C114_opposite_neighbours_refuted"
   ],
   "note": "Proved: a point keeps a pattern exactly if the weights under the window sum to at least 1 in size and the mean of the patterns under it has contrast, and then it is the one of C20, for all chunks. Refuted: two neighbours with contrast that add up to a uniform intensity lose all of it. Real arithmetic; what Numba with fastmath gives for 0/0 is not specified."
  },
  {
   "property": "C115",
   "status": "partial",
   "theorems": [
    "C115_refused_iff",
    "C115_frequency_iff",
    "C115_spatial_iff",
    "C115_mean_lost_refuted",
    "C115_uniform_pattern_refuted"
   ],
   "note": "Proved: which calls are refused; in the frequency domain a pattern keeps intensities exactly if it has a frequency other than zero that is passed, in the spatial domain exactly if the weighted sums of C44 are not all equal, and then it is the filtered pattern rescaled as in C23. Refuted: every pattern is lost if only the zero frequency is passed, and uniform patterns are lost with every filter. Real arithmetic; transforms by their defining sums; transfer functions of shape 1 that NumPy would repeat are left out."
  },
  {
   "property": "C116",
   "status": "partial",
   "theorems": [
    "C116_accepted_as_stated",
    "C116_simulated_iff",
    "C116_one_pixel_refuted",
    "C116_uniform_master_refuted"
   ],
   "note": "Proved: a pattern with a PC is that of C39 if the data type is the master pattern's or the detector sees contrast, and is lost otherwise. Refuted: with another data type every pattern of a detector of one pixel (the default shape), and every pattern of a uniform master pattern, is lost. Real arithmetic; what Numba with fastmath gives for 0/0 is taken to be NaN."
  },
  {
   "property": "C117",
   "status": "partial",
   "theorems": [
    "C117_file_name",
    "C117_title",
    "C117_same_title_iff",
    "C117_long_name_refuted",
    "C117_dots_refuted"
   ],
   "note": "Proved for all names: which name is kept, what the title is, and exactly when two scans of a file have the same. Refuted: with a file name of 20 characters all scans have the same title, and files whose names differ after a first dot have the same name. Paths as on POSIX systems."
  },
  {
   "property": "C118",
   "status": "partial",
   "theorems": [
    "C118_fits",
    "C118_one_pc",
    "C118_each_point_its_own",
    "C118_padded",
    "C118_larger_array_refuted",
    "C118_other_shape_refuted"
   ],
   "note": "Proved for all sizes: the detector fits the map, and which PC each point gets for one PC, one per point, and smaller arrays. Refuted: with more rows or columns of PCs than points all PCs are replaced by (0.5, 0.5, 0.5), also those of the points in the map; with as many PCs as points in another shape, points get PCs of other places without a warning."
  },
  {
   "property": "C119",
   "status": "partial",
   "theorems": [
    "C119_accepted_iff",
    "C119_one_tile",
    "C119_several_tiles",
    "C119_past_the_end_refuted",
    "C119_negative_index_refuted",
    "C119_mixed_signs_refuted"
   ],
   "note": "Proved for all grids: which integers are accepted, and the region of any tiles inside the grid. Refuted: indices address edges, of which there is one more than tiles, so one past the last tile is accepted and its region lies outside the detector, -1 gives that same region rather than the last tile, and -1 together with 0 gives a region whose bottom is above its top."
  },
  {
   "property": "C12",
   "status": "proved",
   "theorems": [
    "C12_sample_to_detector_proper_rotation",
    "C12_matrix_without_azimuthal_and_twist"
   ],
   "note": ""
  },
  {
   "property": "C120",
   "status": "partial",
   "theorems": [
    "C120_accepted_iff",
    "C120_others_kept",
    "C120_values",
    "C120_list_of_all_refuted",
    "C120_list_repeated_refuted"
   ],
   "note": "Proved for all sizes: what is accepted, that each point gets its own number, and that nothing else changes. Refuted for maps of two or more rows: a list of the coordinates of all PCs is an error, and a list with one number for each column is accepted and given to every row."
  },
  {
   "property": "C13",
   "status": "partial",
   "theorems": [
    "C13_r_max_largest_radius_partial",
    "C13_r_max_is_a_corner_radius",
    "C13_r_max_refuted"
   ],
   "note": "False exactly when PCx > 1/2 and PCy > 1/2: the upper left corner is left out (the lower left one is used twice). Proved otherwise."
  },
  {
   "property": "C14",
   "status": "partial",
   "theorems": [
    "C14_extrapolate_pc_pair_layout_partial",
    "C14_mean_pc_at_mean_position_partial",
    "C14_documented_layout_refuted",
    "C54_extrapolated_pcs_are_the_rotated_sample_plane"
   ],
   "note": "Proved for indices given as one (row, column) pair per PC; the documented (2, n) layout is refuted (mean over the wrong axis)."
  },
  {
   "property": "C15",
   "status": "partial",
   "theorems": [
    "C15_x_tilt_of_extrapolated_pcs",
    "C15_fit_recovers_sample_tilt_partial",
    "C15_fit_with_detector_tilt_refuted",
    "C15_affine_fit_exact"
   ],
   "note": "Holds for detector tilt 0; otherwise the result is sigma - 2 theta. The projective fit is in C79."
  },
  {
   "property": "C16",
   "status": "proved",
   "theorems": [
    "C16_save_then_load",
    "C16_save_then_load_bruker",
    "C16_second_round_trip_is_exact",
    "C16_unknown_convention_writes_nothing"
   ],
   "note": "The text is modelled line by line with the default format. Python's printing and reading of the header's floating point numbers is a hypothesis (reading gives back what was printed). Exact arithmetic otherwise."
  },
  {
   "property": "C17",
   "status": "partial",
   "theorems": [
    "C17_grid_indices_1d",
    "C17_grid_indices_2d",
    "C17_number_of_indices",
    "C17_number_of_indices_large_map",
    "C17_grid_shape_large_map",
    "C17_points_before_and_after",
    "C17_grid_as_large_as_map_refuted",
    "C17_single_point_refuted",
    "C17_count_of_square_map_refuted"
   ],
   "note": "Position, spacing and centring proved for every size. The number of indices is the requested one exactly under the stated inequality; refuted in general (e.g. grid as large as the map)."
  },
  {
   "property": "C18",
   "status": "partial",
   "theorems": [
    "C18_map_independent_of_chunks",
    "C18_matrices_independent_of_chunks",
    "C18_when_it_succeeds",
    "C18_wide_window_refuted",
    "C18_even_window_refuted"
   ],
   "note": "Proved for windows with odd sizes, all maps, chunkings and ways of merging small chunks. Refuted: windows with an even size lose neighbours at chunk borders; a chunked axis shorter than the overlap raises an error that the same data in one chunk does not."
  },
  {
   "property": "C19",
   "status": "proved",
   "theorems": [
    "C19_has_value_iff",
    "C19_matrix_entries",
    "C19_map_from_matrices",
    "C19_map_from_matrices_one_chunk",
    "C19_map_is_mean_over_neighbours",
    "C19_values_bounded"
   ],
   "note": "Real arithmetic, NaN as None. The chunked form is for odd window sizes (see C18), the one-chunk form for every window."
  },
  {
   "property": "C20",
   "status": "partial",
   "theorems": [
    "C20_weighted_mean_for_all_chunks",
    "C20_weight_sum_at_least_one",
    "C20_independent_of_chunks",
    "C20_scaling_the_window",
    "C20_succeeds",
    "C20_independent_of_schedule",
    "C20_in_place_all_computed_first",
    "C20_small_weights_refuted",
    "C20_one_dimensional_window_refuted",
    "C20_in_place_schedule_refuted",
    "C20_one_pixel_window_does_nothing"
   ],
   "note": "Proved for all windows, maps, chunkings and schedules where the sum of weights under the window is at least 1 and the result is not written over the data being read. Refuted: smaller sums are truncated to 0; one-dimensional windows fail on maps with chunked columns; in place on views of the data the result depends on the schedule."
  },
  {
   "property": "C21",
   "status": "proved",
   "theorems": [
    "C21_chunks_cover_each_axis",
    "C21_chunk_shape_respected",
    "C21_chunking_succeeds",
    "C21_chunking_keeps_data",
    "C21_patternwise_result_independent_of_chunks",
    "C21_lazy_signal_axes_keep_chunks",
    "C21_rechunk_navigation_axes",
    "C21_patternwise_result_lazy_refuted"
   ],
   "note": "Rounding inside dask's automatic chunk size is any value >= 1. For a lazy signal already split along the signal axes the chunks stay split and per-pattern results then depend on them: proved as C21_patternwise_result_lazy_refuted."
  },
  {
   "property": "C22",
   "status": "partial",
   "theorems": [
    "C22_blocks_replaced_by_their_mean",
    "C22_every_pixel_in_one_block",
    "C22_range_of_data_type",
    "C22_detector_follows",
    "C22_fractional_binning_refuted",
    "C22_downsample_in_place",
    "C22_downsample_copy_partial",
    "C22_downsample_copy_keeps_detector_refuted",
    "C22_invalid_factor_refused"
   ],
   "note": "Everything about patterns, background and detector is proved. Refuted: with inplace=False the detector of the original is changed in every call; binning that is not an integer is truncated."
  },
  {
   "property": "C23",
   "status": "partial",
   "theorems": [
    "C23_rescale_is_the_line_through_the_extremes",
    "C23_rescale_spans_output_range",
    "C23_rescale_spans_dtype_range",
    "C23_order_kept",
    "C23_order_kept_strictly_float",
    "C23_in_range_clips_and_maps_ends",
    "C23_rescale_twice_is_once",
    "C23_percentiles",
    "C23_percentile_is_in_sorted_order",
    "C23_percentiles_clip_and_map_ends",
    "C23_percentile_in_pattern_range",
    "C23_relative_uses_one_map",
    "C23_in_range_with_relative_refused",
    "C23_relative_with_percentiles_refuted"
   ],
   "note": "Real arithmetic before the cast. Everything proved except relative=True together with percentiles, which the documentation excludes but the code accepts and then ignores relative (refuted)."
  },
  {
   "property": "C24",
   "status": "partial",
   "theorems": [
    "C24_static_background_spans_dtype_range",
    "C24_dynamic_background_spans_dtype_range",
    "C24_signal_methods_leave_input_pattern",
    "C24_background_must_fit",
    "C24_pattern_function_changes_its_argument_refuted"
   ],
   "note": "Real arithmetic. Range proved for every operation; refuted: kikuchipy.pattern.remove_dynamic_background changes the (float) array passed by the caller."
  },
  {
   "property": "C25",
   "status": "partial",
   "theorems": [
    "C25_isig_data",
    "C25_isig_detector_partial",
    "C25_isig_open_end_refuted",
    "C25_isig_open_end_loses_pcs_refuted",
    "C25_isig_negative_stop_refuted",
    "C25_isig_negative_start_refuted",
    "C25_inav",
    "C25_isig_then_inav_loses_pc_refuted",
    "C25_crop_rows"
   ],
   "note": "Patterns, background, crystal map and per-point PCs proved for all slices; detector after isig proved for slices with given non-negative ends or starting at 0. Refuted for open-ended slices with a positive start, negative ends, and a signal slice followed by a map slice with one PC."
  },
  {
   "property": "C26",
   "status": "partial",
   "theorems": [
    "C26_round_trip_uint8_partial",
    "C26_axes_partial",
    "C26_short_file",
    "C26_line_axes_refuted",
    "C26_lazy_shape_refuted",
    "C26_other_data_type_refuted"
   ],
   "note": "uint8 signals with 0, 1 or 2 navigation axes come back pixel for pixel, lazily or not; axes are right for maps with more than one row and column. Refuted: axes of a line of patterns, shape of lazy data with an axis of length one, every data type but uint8."
  },
  {
   "property": "C27",
   "status": "partial",
   "theorems": [
    "C27_version_2_refused",
    "C27_version_1",
    "C27_square_grid",
    "C27_hexagonal_grid",
    "C27_wrong_shape_refused",
    "C27_wrong_shape_refused_version_1",
    "C27_short_file_refused",
    "C27_single_row_scales_refuted"
   ],
   "note": "Byte-level model of the reader; pattern positions proved for every version, grid, shape and file. Refuted: a single row gets the step size of rows, and the detector's row axis the step size of columns."
  },
  {
   "property": "C28",
   "status": "partial",
   "theorems": [
    "C28_noisy_positions",
    "C28_number_of_patterns",
    "C28_small_files_are_countable",
    "C28_complete_map",
    "C28_version_0",
    "C28_incomplete_map",
    "C28_incomplete_map_in_order_partial",
    "C28_incomplete_map_out_of_order_refuted",
    "C28_version_5_first_row_refuted",
    "C28_half_step_refuted",
    "C28_no_beam_positions_refuted",
    "C28_footer"
   ],
   "note": "Byte-level model of the reader. Complete maps in any storage order proved for every version, given a file whose patterns can be counted. Refuted: incomplete files stored out of order get metadata of other patterns; version 5 files starting in a later row, maps starting at half a step, and files without beam positions are misread or refused."
  },
  {
   "property": "C29",
   "status": "partial",
   "theorems": [
    "C29_round_trip_partial",
    "C29_patterns_kept",
    "C29_no_background_refuted",
    "C29_background_of_one_row_refuted",
    "C29_unit_axes_refuted",
    "C29_single_pattern_row_refuted"
   ],
   "note": "Round trip proved without unit axes and with a static background. Refuted: no background becomes the number -1, unit axes are lost, patterns with one row or column get too many axes. The crystal map is not modelled."
  },
  {
   "property": "C30",
   "status": "partial",
   "theorems": [
    "C30_capital_answer_refuted",
    "C30_no_answer",
    "C30_first_answer_decides",
    "C30_new_file",
    "C30_existing_file_kept",
    "C30_no_overwrite",
    "C30_adding",
    "C30_adding_succeeds",
    "C30_history",
    "C30_overwrite_with_add_scan_refuted"
   ],
   "note": "Proved for every combination of arguments, answers and histories. Refuted: with overwrite=True, add_scan=True is ignored and all other scans are lost; a capital Y or N is only understood as the first answer."
  },
  {
   "property": "C31",
   "status": "partial",
   "theorems": [
    "C31_adding_interrupted",
    "C31_loaded_by_name",
    "C31_overwriting_complete",
    "C31_overwriting_interrupted_refuted",
    "C31_loaded_without_name_refuted"
   ],
   "note": "Interruption by an exception between writes. Adding a scan keeps all others readable by name. Refuted: overwriting empties the file first; loading without a name may pick the incomplete scan."
  },
  {
   "property": "C32",
   "status": "partial",
   "theorems": [
    "C32_pattern_positions",
    "C32_rectangle_accepted",
    "C32_refused",
    "C32_accepted_is_rectangle_partial",
    "C32_diagonal_refuted",
    "C32_points_twice_refuted",
    "C32_projection_centres_refuted"
   ],
   "note": "Placement proved for every acquisition order of a complete rectangle. Refuted: some incomplete regions (a diagonal, repeated points) are accepted and their patterns misplaced; projection centres are not reordered with the patterns."
  },
  {
   "property": "C33",
   "status": "proved",
   "theorems": [
    "C33_position_of_images",
    "C33_listing_order",
    "C33_without_coordinates",
    "C33_other_number_of_files"
   ],
   "note": "Coordinates are read from names by an arbitrary regular expression. Outside full grids images come in listing order, also proved."
  },
  {
   "property": "C34",
   "status": "partial",
   "theorems": [
    "C34_exactly_requested_energies",
    "C34_fails_only_without_energies",
    "C34_only_own_programs",
    "C34_one_reader_per_file",
    "C34_energy_labels_partial",
    "C55_lambert_several_sites_refuted"
   ],
   "note": "Which patterns are returned is proved for every selection. The labels are right except for one hemisphere in the Lambert projection of a file with several sites, see C55."
  },
  {
   "property": "C35",
   "status": "partial",
   "theorems": [
    "C35_pixel_coordinates",
    "C35_centred_refuted"
   ],
   "note": "Refuted for every file: -sy // 2 is -(npx + 1), so the central pixel has coordinate -1. The exact coordinates are proved."
  },
  {
   "property": "C36",
   "status": "proved",
   "theorems": [
    "C36_project_inverse",
    "C36_inverse_project",
    "C36_projection_inside_square",
    "C36_inverse_on_upper_unit_hemisphere",
    "C36_projection_of_direction",
    "C36_hemispheres_alike",
    "C36_one_to_one"
   ],
   "note": "Real numbers instead of doubles."
  },
  {
   "property": "C37",
   "status": "proved",
   "theorems": [
    "C37_reads_inside_with_valid_weights",
    "C37_no_overshoot",
    "C37_no_overshoot_of_master_pattern",
    "C37_bilinear_interpolation",
    "C37_exact_hit",
    "C37_lower_hemisphere"
   ],
   "note": "Square master patterns of any size >= 1; real numbers instead of doubles."
  },
  {
   "property": "C38",
   "status": "proved",
   "theorems": [
    "C38_unit_vectors_through_pixel_centres",
    "C38_direction_unique",
    "C38_fixed_and_varying_pc_agree"
   ],
   "note": "orix' matrix/quaternion conversions are taken to be exact."
  },
  {
   "property": "C39",
   "status": "partial",
   "theorems": [
    "C39_pattern_i_uses_rotation_i_and_pc_i",
    "C39_common_pc",
    "C39_rotation_without_pc",
    "C39_shape_mismatch_rejected_partial",
    "C39_too_many_axes_rejected",
    "C39_accepted",
    "C39_shape_mismatch_rejected_refuted",
    "C39_cropped_detector_refuted"
   ],
   "note": "Assignment of rotations and PCs is proved for every chunking. The error for differing shapes is refuted: len(detector.pc) is the first navigation axis, so a detector with navigation shape (1, n), e.g. any cropped detector with one PC, passes the check, and patterns beyond the n-th are read outside the array of directions."
  },
  {
   "property": "C40",
   "status": "partial",
   "theorems": [
    "C40_start_in_bounds_in_trust_region",
    "C40_bounds_are_trust_region_partial",
    "C40_wider_trust_region",
    "C40_argument_kept_partial",
    "C40_array_changed_refuted",
    "C40_integers_refuted"
   ],
   "note": "Proved for every start and trust region in real arithmetic. Refuted when refining both orientations and PCs: an array passed as trust region is overwritten with radians, and integer trust regions truncate the angles to 0."
  },
  {
   "property": "C41",
   "status": "partial",
   "theorems": [
    "C41_settings_of_own_arguments",
    "C41_history_does_not_matter_partial",
    "C41_dictionary_kept_partial",
    "C41_dictionary_reused_refuted",
    "C41_deferred_by_reference_refuted"
   ],
   "note": "Proved for every history of calls, also interrupted ones. Refuted for a dictionary of keyword arguments passed to two calls (the first call changes it), and for deferred NLopt computations if Dask keeps the class-level dictionary by reference."
  },
  {
   "property": "C42",
   "status": "proved",
   "theorems": [
    "C42_results_at_their_points",
    "C42_succeeds",
    "C42_centers_in_order",
    "C42_centers_in_rectangle",
    "C42_centers_in_line",
    "C42_best_variant",
    "C42_variant_index"
   ],
   "note": "For every map, mask, set of patterns and PCs and every solver; orix maps are modelled by their arrays. Scores are compared as integers (NaN is not modelled)."
  },
  {
   "property": "C43",
   "status": "proved",
   "theorems": [
    "C43_every_estimate_exact",
    "C43_every_estimate_exact_from_bottom",
    "C43_distance_without_pixel_size",
    "C43_when_there_are_estimates",
    "C43_average_exact",
    "C43_every_estimate_exact_tsl_partial",
    "C43_tsl_distance_refuted"
   ],
   "note": "Exact arithmetic. PCz as documented is a fraction of the detector height; for detectors higher than wide this is not EBSDDetector's TSL convention (C43_tsl_distance_refuted)."
  },
  {
   "property": "C44",
   "status": "proved",
   "theorems": [
    "C44_frequency_filter_is_the_weighted_sum",
    "C44_constant_pattern",
    "C44_only_pixels_under_the_window_matter"
   ],
   "note": "Over real numbers: the discrete Fourier transforms are their defining sums and the convolution theorem is proved; floating point rounding is not modelled."
  },
  {
   "property": "C45",
   "status": "partial",
   "theorems": [
    "C45_tiles_partition_the_detector",
    "C45_rgb_channel",
    "C45_images_sum_to_the_pattern",
    "C45_tile_borders",
    "C45_region_of_several_tiles",
    "C45_offset_axis_refuted",
    "C45_tiles_in_double_precision_refuted"
   ],
   "note": "Proved in exact arithmetic for signal axes without offset. Refuted with an axis offset, and in double precision, where neighbouring tiles can overlap or leave a gap at borders half way between two pixels."
  },
  {
   "property": "C46",
   "status": "proved",
   "theorems": [
    "C46_euler_unit_quaternion",
    "C46_euler_is_bunge",
    "C46_rotation_preserves",
    "C46_rotations_compose",
    "C46_conjugate_undoes",
    "C46_rodrigues",
    "C46_rodrigues_identity_refuted"
   ],
   "note": "Real arithmetic. rotation_from_rodrigues (not used elsewhere in the package) gives NaN for the identity."
  },
  {
   "property": "C47",
   "status": "partial",
   "theorems": [
    "C47_circular_window_is_a_disc",
    "C47_origin_inside",
    "C47_circular_keeps_origin",
    "C47_circular_symmetric_odd",
    "C47_n_neighbours_odd",
    "C47_circular_keeps_axes",
    "C47_circular_exists",
    "C47_n_neighbours_even_refuted",
    "C47_circular_single_row_refuted"
   ],
   "note": "Geometry proved for all shapes. Refuted: for even sizes the reported number of neighbours is one less than the largest offset; a circular window with one row and several columns raises an error."
  },
  {
   "property": "C48",
   "status": "partial",
   "theorems": [
    "C48_crop_map_keeps_pcs",
    "C48_crop_refused",
    "C48_copy_leaves_signal",
    "C48_copy_returns_what_in_place_stores",
    "C48_blockwise_copy_partial",
    "C48_blockwise_copy_keeps_axes_refuted",
    "C48_later_changes_do_not_reach_the_original_partial",
    "C48_downsampling_the_copy_refuted",
    "C48_cropping_the_map_of_the_copy_refuted",
    "C48_deepcopy_isolates"
   ],
   "note": "Non-interference proved for all histories of operations that do not change a detector object, and for all histories after a deep copy. Refuted: downsampling or cropping the map of the returned signal changes the detector of the original; fft_filter and average_neighbour_patterns return a signal without axis calibration."
  },
  {
   "property": "C49",
   "status": "partial",
   "theorems": [
    "C49_entries_of_chosen_solution",
    "C49_when_it_succeeds",
    "C49_input_kept_partial",
    "C49_other_solutions_kept",
    "C49_input_changed_refuted"
   ],
   "note": "The map is right for every result array; the caller's array is changed whenever a not indexed point of the chosen solution has another quaternion than the identity."
  },
  {
   "property": "C50",
   "status": "partial",
   "theorems": [
    "C50_no_arguments",
    "C50_forwarded_partial",
    "C50_normalize_swapped_refuted",
    "C50_normalize_ignores_dtype_refuted",
    "C50_normalize_progressbar_fails_refuted",
    "C50_normalize_defaults_partial"
   ],
   "note": "All re-exported methods forward their arguments for every way of calling, except VirtualBSEImage.normalize_intensity, which swaps dtype_out and show_progressbar."
  },
  {
   "property": "C51",
   "status": "partial",
   "theorems": [
    "C51_dotted_names_refuted",
    "C51_first_signal",
    "C51_other_signals_folder_refuted",
    "C51_other_signals_extension_refuted",
    "C51_other_signals_name_refuted",
    "C51_save_in_same_directory_partial",
    "C51_extension_of_label_ignored_refuted"
   ],
   "note": "True for one scan; every further scan gets the current directory and no (or another) extension. save() without a name ignores the extension."
  },
  {
   "property": "C52",
   "status": "partial",
   "theorems": [
    "C52_selects_components",
    "C52_out_of_range",
    "C52_results_kept_partial",
    "C52_failure_refuted",
    "C52_rechunking_stops",
    "C52_rechunking_zero",
    "C52_chunks_positive_partial",
    "C52_chunks_positive_refuted",
    "C52_large_rows_refuted"
   ],
   "note": "Components and values proved for all matrices in exact arithmetic. Refuted: learning results are not restored if HyperSpy's function fails, and chunk sizes can be 0 with one map point or very large rows."
  },
  {
   "property": "C53",
   "status": "partial",
   "theorems": [
    "C53_scale_is_pixel_pitch_refuted"
   ],
   "note": "False for every detector with at least two rows and columns: range/(N-1) instead of range/N."
  },
  {
   "property": "C54",
   "status": "proved",
   "theorems": [
    "C54_extrapolated_pcs_are_the_rotated_sample_plane"
   ],
   "note": "Azimuthal and twist angles zero, as the method documents."
  },
  {
   "property": "C55",
   "status": "partial",
   "theorems": [
    "C55_axes_describe_data_partial",
    "C55_lambert_several_sites_refuted"
   ],
   "note": "Refuted for every EBSD or TKD file with two or more sites when one hemisphere is read in the Lambert projection: the number of sites is taken for the number of hemispheres."
  },
  {
   "property": "C56",
   "status": "partial",
   "theorems": [
    "C56_initial_step_pc",
    "C56_wrong_number_of_steps",
    "C56_initial_step_in_degrees_refuted"
   ],
   "note": "Steps of Euler angles are used as radians although documented in degrees."
  },
  {
   "property": "C57",
   "status": "partial",
   "theorems": [
    "C57_own_copies",
    "C57_no_foreign_bounds",
    "C57_shared_one_at_a_time_partial",
    "C57_shared_refuted"
   ],
   "note": "Proved for NLopt (one optimiser per chunk) and for copies of the keyword arguments per chunk. Refuted for SciPy if all chunks share the dictionary; whether they do depends on the version of Dask."
  },
  {
   "property": "C58",
   "status": "partial",
   "theorems": [
    "C58_start_feasible_partial",
    "C58_zero_bounds_refuted"
   ],
   "note": "Without a trust region, differential evolution, dual annealing and SHGO get bounds allowing zeros only."
  },
  {
   "property": "C59",
   "status": "partial",
   "theorems": [
    "C59_writes_model_partial",
    "C59_learning_results_kept",
    "C59_other_shapes_refuted",
    "C59_failure_leaves_file_refuted"
   ],
   "note": "Refuted for signals with other than two navigation axes (always an error) and for failures (the temporary file is left)."
  },
  {
   "property": "C60",
   "status": "partial",
   "theorems": [
    "C60_orientation_score_partial",
    "C60_pc_score_partial",
    "C60_orientation_pc_score_partial",
    "C60_one_hemisphere_for_both",
    "C60_simulated_pattern_exists",
    "C60_differently_bright_hemispheres_refuted",
    "C60_single_pattern_of_2d_signal_refuted",
    "C60_detector_fits_the_signal"
   ],
   "note": "Proved for 32-bit float master patterns and those whose hemispheres have the same lowest and highest intensity, in exact arithmetic, for non-constant patterns and optimisers that report the objective at the returned parameters. Refuted for other master patterns: their hemispheres are rescaled separately before refinement, and the score can be -1 for a pattern equal to the simulated one. Also refuted: a signal with navigation shape (1, 1) and a detector of this shape are accepted but the refinement of its orientation fails."
  },
  {
   "property": "C61",
   "status": "partial",
   "theorems": [
    "C61_patterns_and_pcs",
    "C61_crystal_map_points",
    "C61_grid_exists",
    "C61_crystal_map_shape_refuted"
   ],
   "note": "Patterns, PCs and crystal map points proved for all maps and grids with two navigation axes. Refuted: the crystal map does not have the shape of the new signal (orix reports the box around the points), so that the signal refuses its own crystal map."
  },
  {
   "property": "C62",
   "status": "partial",
   "theorems": [
    "C62_sums",
    "C62_attributes",
    "C62_gnomonic_coordinates_kept_iff_partial",
    "C62_binning_partial",
    "C62_binning_with_left_over_pixels_refuted"
   ],
   "note": "Integer factors, crop=True and no out=. Gnomonic coordinates are kept if and only if the two factors are the same and no pixels are left over (for PCx not 0); binning follows for integer binning in the same cases and is wrong with pixels left over."
  },
  {
   "property": "C63",
   "status": "partial",
   "theorems": [
    "C63_consistent_signal_accepts_its_attributes",
    "C63_history_keeps_signal_consistent_partial",
    "C63_isig_with_one_pc_refuted",
    "C63_background_of_other_shape_refuted"
   ],
   "note": "Proved for every history in which detector slices have non-negative given ends or start at the beginning and there is one PC per pattern, backgrounds fit, and grids are extracted from signals without crystal map. Refuted: slicing the detector of a signal with one PC gives a detector the signal refuses; a background of another shape is accepted (a warning); other slices see C25, grids with a crystal map see C61."
  },
  {
   "property": "C64",
   "status": "partial",
   "theorems": [
    "C64_mean_zero",
    "C64_standard_deviation",
    "C64_standard_deviation_by_root",
    "C64_ignores_contrast_and_brightness",
    "C64_idempotent",
    "C64_order_kept",
    "C64_documented_standard_deviation_refuted"
   ],
   "note": "Proved in real arithmetic for all patterns with contrast. Refuted: the standard deviation is 1/num_std, not num_std as documented."
  },
  {
   "property": "C65",
   "status": "partial",
   "theorems": [
    "C65_refused_shapes",
    "C65_lines_are_traces",
    "C65_facing_traces_are_drawn",
    "C65_traces_are_drawn_partial",
    "C65_traces_on_the_detector_are_drawn_partial",
    "C65_pixel_coordinates",
    "C65_pixel_coordinates_error",
    "C65_pc_marker",
    "C65_markers",
    "C65_trace_through_pc_refuted",
    "C65_trace_in_corner_refuted"
   ],
   "note": "Every line is the trace of a given plane. Completeness holds with (-h -k -l) given for every (hkl), for traces not exactly through the PC, and PCs not to the lower right of the centre (otherwise r_max is too small, C13); both exceptions are refuted by examples. Pixel coordinates are within half a pixel of the pixel grid."
  },
  {
   "property": "C66",
   "status": "partial",
   "theorems": [
    "C66_zone_axes_are_crossings",
    "C66_shown_directions_point_to_the_detector",
    "C66_crossings_are_shown",
    "C66_one_pattern",
    "C66_gnomonic_coordinates_of_several_patterns_refuted"
   ],
   "note": "Completeness for pairs of planes that point to the detector, inside the circle with radius r_max. The direction points to the detector if lattice vectors are longer than 1e-5 (the code's tolerance). Refuted: with several patterns, gnomonic coordinates include zone axes outside of the detector."
  },
  {
   "property": "C67",
   "status": "partial",
   "theorems": [
    "C67_lines_agree",
    "C67_zone_axes_agree",
    "C67_all_traces_are_drawn"
   ],
   "note": "If no trace passes exactly through the PC (and, for zone axes, with (-h -k -l) for every (hkl)). The interactive plot draws also traces through the PC, unlike on_detector (C65)."
  },
  {
   "property": "C68",
   "status": "partial",
   "theorems": [
    "C68_each_band_once",
    "C68_direction_unique",
    "C68_single_reflectors_give_half_bands",
    "C68_crystal_symmetry",
    "C68_lower_is_upper_turned",
    "C68_refused",
    "C68_axes",
    "C68_axes_of_capitals_refuted",
    "C68_origin_of_axes_refuted"
   ],
   "note": "Serial computation in real arithmetic, half_size at least 1. Each band counts once if both (hkl) and (-h -k -l) are given and Bragg angles are larger than 1e-7; a reflector without its opposite gives only half of its band. Refuted: hemisphere names in capitals are accepted, but Both gives an array without hemisphere axis; the axes put -1, not 0, on the middle pixel."
  },
  {
   "property": "C69",
   "status": "partial",
   "theorems": [
    "C69_never_brighter",
    "C69_one_addition_is_kept",
    "C69_right_where_one_thread_adds",
    "C69_right_with_one_thread",
    "C69_right_with_atomic_additions",
    "C69_right_result_possible",
    "C69_threads_give_the_sum_refuted"
   ],
   "note": "Refuted: the parallel loop over reflectors reads and writes shared pixels without synchronisation, so additions can be lost and the result varies. Proved for every distribution and interleaving: never brighter than the sum, at least one addition kept, and exact where one thread adds or additions are atomic."
  },
  {
   "property": "C70",
   "status": "partial",
   "theorems": [
    "C70_pixels_show_their_directions",
    "C70_intensities_of_directions_kept",
    "C70_rest_kept",
    "C70_lazy_refused"
   ],
   "note": "In real arithmetic; the spline interpolation of SciPy is a parameter, so intensities are exact for functions that it reproduces."
  },
  {
   "property": "C71",
   "status": "partial",
   "theorems": [
    "C71_closest_energy",
    "C71_highest_energy_by_default",
    "C71_only_energy",
    "C71_suitable_iff",
    "C71_both_hemispheres",
    "C71_one_hemisphere_partial",
    "C71_one_hemisphere_refuted"
   ],
   "note": "Refuted: with one hemisphere the same array is used for both, which is right only if there is also a two-fold axis along z; phases with point groups -1, 2/m (unique axis b), -3 and -3m are accepted and give wrong intensities in the other hemisphere. Exact at directions of pixels; in between C37 applies."
  },
  {
   "property": "C72",
   "status": "partial",
   "theorems": [
    "C72_oxford_binning_rounded",
    "C72_oxford_maps",
    "C72_oxford_binning",
    "C72_oxford_lines_refuted",
    "C72_edax_maps",
    "C72_accepted_files",
    "C72_incomplete_files",
    "C72_requested_scans",
    "C72_requested_order",
    "C72_default_scan_partial",
    "C72_default_scan_refuted"
   ],
   "note": "Refuted: line scans of Oxford files get an array of PCs which does not fit the signal (one extra dimension); incomplete scans are padded but line scans then have more dimensions than axes; the default scan is the first group even if it is not a scan. Proved for maps. Numbers are real; metadata and crystal maps are not modelled."
  },
  {
   "property": "C73",
   "status": "partial",
   "theorems": [
    "C73_extension_decides",
    "C73_manufacturer_decides",
    "C73_content_decides",
    "C73_unknown_manufacturer_refused",
    "C73_two_contents_refuted"
   ],
   "note": "Refuted: a file with two supported EMsoft contents is refused although each alone is read. Proved for every order of readers and every tree. Names in ASCII; h5py is a tree of groups and datasets."
  },
  {
   "property": "C74",
   "status": "partial",
   "theorems": [
    "C74_first_signal_remembers",
    "C74_directory_of_path",
    "C74_directory_written",
    "C74_directory_remembered",
    "C74_no_name",
    "C74_further_signals_refuted",
    "C74_named_file_written",
    "C74_no_extension",
    "C74_unknown_extension_refused",
    "C74_other_dimensions_refused",
    "C74_saved_again_partial",
    "C74_extension_unused_refuted",
    "C74_saved_again_refuted",
    "C74_second_scan_refuted"
   ],
   "note": "Refuted: when a file has several scans, all but the first remember the current directory and no extension, so save() without a name writes there; the extension argument and the remembered extension are ignored, so a signal from scan.dat is saved to scan.h5, and one from map.dat.h5 to map.dat in the NORDIF format. Proved: named files, and files with extension h5 and no other dot. POSIX paths given by their parts."
  },
  {
   "property": "C75",
   "status": "partial",
   "theorems": [
    "C75_value",
    "C75_contrast",
    "C75_brightness_and_contrast",
    "C75_translation",
    "C75_mirror",
    "C75_transpose",
    "C75_undefined_exactly_for_zero",
    "C75_undefined_exactly_for_constant",
    "C75_range",
    "C75_single_pixel",
    "C75_even_pattern_has_greatest_quality",
    "C75_inertia_max_is_not_a_maximum_refuted",
    "C75_map"
   ],
   "note": "proved for every shape and pattern over the reals: what the number is, that it does not depend on brightness, contrast, cyclic translation, mirroring or transposition, when it is undefined and its sharp upper bound; refuted: inertia_max is the mean, not the maximum, of the weights, so that every checkerboard has negative quality; float32 rounding and numba fastmath are not modelled"
  },
  {
   "property": "C76",
   "status": "partial",
   "theorems": [
    "C76_round_trip",
    "C76_real_round_trip_even_width",
    "C76_real_round_trip_odd_width_refuted",
    "C76_zero_frequency",
    "C76_options",
    "C76_options_with_shift_refuted",
    "C76_filter_spectrum",
    "C76_spectrum_determines",
    "C76_filter_all_pass",
    "C76_filter_zero_frequency_only",
    "C76_filter_linear"
   ],
   "note": "proved for every shape, pattern, apodization window, transfer function and shift over the reals; refuted: with real_fft_only a pattern of odd width comes back one column narrower, and keyword arguments of ifft() with shift=True go to ifftshift() and raise; the fast algorithms in scipy are taken to compute the defining sums, rounding is not modelled"
  },
  {
   "property": "C77",
   "status": "partial",
   "theorems": [
    "C77_integrity",
    "C77_nothing_without_permission",
    "C77_valid_file_is_used",
    "C77_damaged_package_refused",
    "C77_damaged_cache_refused",
    "C77_download_succeeds",
    "C77_archive_succeeds",
    "C77_archive_succeeds_the_second_time",
    "C77_archive_without_the_file",
    "C77_other_files_stay",
    "C77_archive_after_a_stop_refuted",
    "C77_clear_cache_partial",
    "C77_clear_cache_after_change_refuted"
   ],
   "note": "proved for all contents, registries, disks and answers of servers, with pooch's behaviour taken from its documentation; refuted: after a stop during extraction of an archive the next permitted call fails (the one after succeeds), and clear_cache() misses the datasets after the environment variable changes since get_fetching_pooch() keeps its first directory; missing: members of archives that leave the directory (..), several processes at once"
  },
  {
   "property": "C78",
   "status": "partial",
   "theorems": [
    "C78_modified_hann_range",
    "C78_modified_hann_symmetric",
    "C78_modified_hann_increases",
    "C78_modified_hann_maximum_odd",
    "C78_modified_hann_maximum_even_refuted",
    "C78_lowpass_value",
    "C78_highpass_value",
    "C78_lowpass_decreases",
    "C78_highpass_is_mirrored",
    "C78_window_filters_frequencies",
    "C78_window_exists",
    "C78_window_of_one_row_refuted",
    "C78_lowpass_keeps_the_mean",
    "C78_highpass_removes_the_mean",
    "C78_default_highpass_keeps_a_part",
    "C78_zero_cutoff_refuted"
   ],
   "note": "proved for every shape, cut-off, positive width and pattern over the reals; refuted: the modified Hann window of even length does not reach one, Window('lowpass' or 'highpass') with an axis of length one raises TypeError, and cutoff=0 with the default width gives nan at the zero frequency; windows of scipy and rounding are not modelled"
  },
  {
   "property": "C79",
   "status": "partial",
   "theorems": [
    "C79_svd_exists",
    "C79_estimate_exists",
    "C79_tilts_of_a_plane_partial",
    "C79_tilts_of_inliers",
    "C79_mask_as_a_list_refuted",
    "C79_ten_pcs_refuted",
    "C79_two_pcs_refuted",
    "C79_estimates_agree_partial",
    "C79_estimates_agree_refuted",
    "C79_projective_fit_is_exact_partial",
    "C79_outliers_are_left_out",
    "C79_extrapolated_pcs_are_fitted",
    "C79_one_pc_is_refused"
   ],
   "note": "the exactness theorems assume fewer than ten PCs or PCs placed symmetrically, such as on a full grid; without it they are refuted by C79_ten_pcs_refuted. numpy's SVD and skimage's estimate are arguments constrained by their definitions only, which are shown to be satisfiable; RANSAC and rounding are not modelled"
  },
  {
   "property": "C80",
   "status": "partial",
   "theorems": [
    "C80_phases_of_an_indexer",
    "C80_own_phase_list_is_accepted",
    "C80_indexer_needs_space_groups",
    "C80_accepted_phases",
    "C80_equal_lattices_refuted",
    "C80_indexer_has_the_geometry",
    "C80_indexer_of_detector_fits",
    "C80_accepted_indexer",
    "C80_results_at_their_points",
    "C80_phases_at_their_points_partial",
    "C80_phases_at_their_points_refuted",
    "C80_optimized_pcs",
    "C80_optimized_detector_loses_pixels_refuted"
   ],
   "note": "PyEBSDIndex is an argument assumed to treat patterns one by one; phases at points are those looked up by ID in the list passed to the crystal map, and are right if the list counts from zero; what orix does with other lists is not modelled. Refuted: phase IDs are not compared with the indexer's numbering; lattice parameters may differ by 1e-5 relatively; pixel size and binning are lost"
  },
  {
   "property": "C81",
   "status": "partial",
   "theorems": [
    "C81_metric_remembers",
    "C81_result_of_each_call",
    "C81_all_arguments_given_partial",
    "C81_nothing_given_before_partial",
    "C81_by_name",
    "C81_mask_of_an_earlier_call_refuted",
    "C81_refused_call_refuted",
    "C81_signal_mask_of_another_shape_refuted",
    "C81_unfit_call"
   ],
   "note": "C81_result_of_each_call says which masks and data type any call of any history uses. Refuted: masks and data types of earlier calls are used again, even of refused calls, and only the size of a signal mask counts. The similarity of two patterns is an argument (C07, C08); sorting and iterations over the dictionary are in C01 to C03"
  },
  {
   "property": "C82",
   "status": "partial",
   "theorems": [
    "C82_frequency_background",
    "C82_no_window",
    "C82_background_within_pattern",
    "C82_background_fits_data_type",
    "C82_contrast_and_brightness",
    "C82_constant_pattern",
    "C82_removal_ignores_contrast_and_brightness",
    "C82_mirrored_columns",
    "C82_mirrored_rows",
    "C82_background_half_a_pixel_off_refuted",
    "C82_cut_off_at_half_the_distance_refuted",
    "C82_reach_in_the_spatial_domain",
    "C82_got_background_is_removed",
    "C82_default_standard_deviation_refuted",
    "C82_conversion_wraps",
    "C82_converted_too_early_refuted",
    "C82_whole_patterns_in_chunks",
    "C82_detector_in_several_chunks_refuted"
   ],
   "note": "Real arithmetic instead of 32-bit floats; scipy's Gaussian window and gaussian_filter are modelled by their formulas, the transforms as in C44. Refuted: half a pixel off for even windows, cut-off at half the documented distance, height instead of width as default, conversion before blurring, chunks over the detector"
  },
  {
   "property": "C83",
   "status": "partial",
   "theorems": [
    "C83_settings_read",
    "C83_numbers_are_needed",
    "C83_reported_line_refuted",
    "C83_order_of_entries_refuted",
    "C83_heading_in_a_value_refuted",
    "C83_calibration_read",
    "C83_calibration_without_width",
    "C83_image_resolution_refuted",
    "C83_scan_read",
    "C83_detector_of_given_pattern_size_refuted",
    "C83_given_sizes_refuted",
    "C83_padded_numbers"
   ],
   "note": "Regular expressions, int() and float() are modelled on texts; exponents, 'nan', '_' between digits and rounding to 64-bit floats are left out, as are images and background files. Refuted: reported line, order of entries, headings in values, image resolution, detector shape with a given pattern size, given sizes with an unreadable setting file"
  },
  {
   "property": "C84",
   "status": "partial",
   "theorems": [
    "C84_normalized_channel",
    "C84_contrast_of_regions",
    "C84_brightness_and_contrast_ignored_refuted",
    "C84_range",
    "C84_order",
    "C84_full_range",
    "C84_percentiles",
    "C84_constant_channel_refuted",
    "C84_constant_channel_percentiles_refuted",
    "C84_black_where_alpha_is_lowest",
    "C84_constant_alpha_refuted",
    "C84_axes",
    "C84_offset_refuted"
   ],
   "note": "Real numbers, without rounding to 32-bit floats; NaN is a value of its own. Refuted: effect of brightness offset and contrast factor, constant regions, constant alpha channels, offsets of axes"
  },
  {
   "property": "C85",
   "status": "partial",
   "theorems": [
    "C85_equal_phases",
    "C85_equal_to_itself",
    "C85_symmetric_refuted",
    "C85_transitive_refuted",
    "C85_symmetric_if_closer",
    "C85_order_of_atoms_refuted",
    "C85_position_in_next_cell_refuted",
    "C85_map_accepted_by_shape",
    "C85_step_sizes_compared_by_name",
    "C85_refinement_accepts",
    "C85_error_if_not_indexed_refuted",
    "C85_part_of_a_map_refuted"
   ],
   "note": "Rational numbers; point groups are given by their operations. Refuted: symmetry, transitivity, order of atoms, positions in other cells, kind of error, maps cut out of others"
  },
  {
   "property": "C86",
   "status": "partial",
   "theorems": [
    "C86_same_points_for_every_position",
    "C86_single_point",
    "C86_points_of_each_position",
    "C86_chosen_positions",
    "C86_selection",
    "C86_one_position",
    "C86_accepted",
    "C86_round_trip",
    "C86_round_trip_of_each_position",
    "C86_round_trip_at_one_position",
    "C86_leading_axes_refuted",
    "C86_one_point_each_refuted",
    "C86_round_trip_with_slices_refuted",
    "C86_formats"
   ],
   "note": "Real arithmetic. Entries of position tuples are integers or slices without step. Refuted: arrays whose first axes have the navigation shape, one point per position, slices and back"
  },
  {
   "property": "C87",
   "status": "partial",
   "theorems": [
    "C87_patterns_in_a_row",
    "C87_patterns_in_rows_and_columns",
    "C87_accepted",
    "C87_other_files_refused",
    "C87_detector",
    "C87_orientations",
    "C87_map_fits_a_row",
    "C87_map_fits_rows_and_columns_refuted",
    "C87_width_and_height_refuted",
    "C87_single_pattern_axes_refuted",
    "C87_atoms",
    "C87_lattice_in_angstroms_refuted",
    "C87_names"
   ],
   "note": "Real arithmetic. Scan sizes are non-negative integers (no -1). Conversion of Euler angles to rotations is not part of it (see C46). Refuted: documented order of scan_size, shape of the crystal map for rows and columns, unit of lattice parameters, axes of a single pattern"
  },
  {
   "property": "C88",
   "status": "partial",
   "theorems": [
    "C88_default_detector",
    "C88_class_of_loaded_signals",
    "C88_only_images",
    "C88_loaded_patterns",
    "C88_pattern_conversions",
    "C88_background_stays_usable",
    "C88_background_after_rescaling_refuted",
    "C88_setting_the_same_type_refuted",
    "C88_other_name_of_lazy_signal_refuted",
    "C88_complex_numbers",
    "C88_deep_copies_are_separate",
    "C88_lazy_copy_is_separate_refuted",
    "C88_simulation_conversions",
    "C88_unknown_simulation_type_refuted",
    "C88_simulation_made_other",
    "C88_one_name_kept"
   ],
   "note": "Proved for all histories of as_lazy, compute, change_dtype to real types and deepcopy, for patterns and master patterns (the latter also with set_signal_type to EBSDMasterPattern and ECPMasterPattern). Refuted: set_signal_type('EBSD') on an EBSD signal replaces its detector by a default one and drops crystal map and background; the documented other names of types are not registered for lazy signals, which become HyperSpy's; a misspelled master pattern type raises AttributeError after the signal has lost its class and attributes; rescale_intensity with another dtype_out keeps the background in the old type, so that it cannot be removed any more; as_lazy() returns a copy with the same detector object. HyperSpy's part of the conversions is written down in the model, it is not in the repository."
  },
  {
   "property": "C89",
   "status": "partial",
   "theorems": [
    "C89_lines_at_each_position",
    "C89_zone_axes_at_each_position",
    "C89_only_visible_lines_in_maps",
    "C89_labels_at_zone_axes",
    "C89_pc_at_each_position",
    "C89_labels_tell_zone_axes_apart",
    "C89_labels_of_large_indices_refuted",
    "C89_collections",
    "C89_plot_fails_iff",
    "C89_pattern_below_its_lines",
    "C89_plot_with_several_pcs_refuted",
    "C89_plot_without_zone_axes_refuted"
   ],
   "note": "Markers and collections are those of the right pattern, for all shapes and positions. Refuted: labels of indices with several digits are not unique ([1 11 1] and [11 1 1] are both 1111); plot() with labels fails (IndexError) where a pattern of a map has no zone axis in view, and exactly there; with several PCs, plot() draws the pattern and the PC for the average PC, so not where the lines of this pattern are. What HyperSpy and Matplotlib do with markers and collections is an assumption of the model; simulations without any zone axes are not covered (their label is one empty text)."
  },
  {
   "property": "C90",
   "status": "partial",
   "theorems": [
    "C90_side_view",
    "C90_top_view",
    "C90_side_view_of_map",
    "C90_top_view_of_map",
    "C90_side_view_of_two_columns_refuted",
    "C90_views_with_several_pcs_refuted",
    "C90_side_view_with_azimuthal_refuted",
    "C90_top_view_with_twist_refuted",
    "C90_screen_within_limits",
    "C90_screen_within_limits_refuted",
    "C90_top_view_within_limits"
   ],
   "note": "Proved with one PC, for the side view without azimuthal angle and twist and for the top view without twist, for all other angles, PCs and sizes. Refuted: the distance is taken from the first element of an array, so with PCs for a map the views fail unless the map has one column (or two, side view, or three, top view, when the PC is drawn where none can be), and with PCs for a line the distance is that of the first pattern while the rest is the average; the azimuthal angle (side view, documented) and twist (both) are left out; the screen is outside the axis limits for long distances."
  },
  {
   "property": "C91",
   "status": "partial",
   "theorems": [
    "C91_plot_fails_iff",
    "C91_screen_and_pc",
    "C91_pixels_of_pattern",
    "C91_average_pc_refuted",
    "C91_pixel_coordinates_refuted",
    "C91_zoom_out",
    "C91_zoom_out_refuted",
    "C91_zoom_in_pixels",
    "C91_gnomonic_circles",
    "C91_default_circles",
    "C91_circles_in_pixels_refuted"
   ],
   "note": "Proved with one PC. Refuted: with several PCs at different distances the PC in gnomonic coordinates is not at the average PC; pixel coordinates of the plot go to (columns - 1, rows - 1), those of to_pixel_coords() to (columns, rows); if the PC is off the screen, zooming out in gnomonic coordinates hides part of the screen; in pixel coordinates zooming out is from the upper left corner; gnomonic circles in pixel coordinates are of less than six pixels (documented for plot(), but the box for them is offered by the interactive plot)."
  },
  {
   "property": "C92",
   "status": "partial",
   "theorems": [
    "C92_slider_starts_at_value",
    "C92_slider_keeps_range",
    "C92_geometrical_simulation_accepted",
    "C92_master_pattern_accepted",
    "C92_one_overlay_of_each_kind",
    "C92_figures_show_their_controls",
    "C92_controls_do_not_fail",
    "C92_given_orientation_shown_first",
    "C92_screen_kept",
    "C92_detector_left_alone",
    "C92_inplace_averages_pc",
    "C92_sliders_set_their_parameters",
    "C92_options_kept",
    "C92_assignments_shown_refuted",
    "C92_assignment_sets_one_parameter",
    "C92_assignments_kept_refuted",
    "C92_two_figures_agree_refuted",
    "C92_late_overlay_refuted",
    "C92_marker_size_refuted"
   ],
   "note": "Proved by invariants over histories, for those in which overlays are set before a plot is shown and detectors are given single PCs. Refuted: nothing is connected to the signals of the detector, so values assigned to it are not shown, and the next event of a figure undoes them; with two figures of a plotter, an event in one undoes what was set in the other; an overlay set after a plot was shown appears with the next event and cannot be ticked off in it; the size of markers of zone axes given by the caller is overwritten, in the dictionary of the caller."
  },
  {
   "property": "C93",
   "status": "partial",
   "theorems": [
    "C93_scan_calibrated",
    "C93_line_scan_calibration_refuted",
    "C93_detector_calibrated",
    "C93_pixel_size_follows_refuted",
    "C93_pixel_size_of_signal",
    "C93_indexed_map_fits",
    "C93_map_fits_later",
    "C93_map_follows_calibration_refuted",
    "C93_column_scan_refuted",
    "C93_unit_of_rows_refuted",
    "C93_slices_keep_positions",
    "C93_grids_keep_distances",
    "C93_grid_positions_refuted",
    "C93_grid_map_saved_refuted",
    "C93_saved_and_loaded",
    "C93_line_scan_saved_and_loaded",
    "C93_line_scan_empty_map_refuted",
    "C93_single_row_map_refuted",
    "C93_saved_positions_refuted",
    "C93_saved_detector_calibration_refuted"
   ],
   "note": "Proved for histories without new scan calibrations and grids after indexing. Refuted: calibrating the scan leaves the crystal map and calibrating the detector leaves its pixel size, so that saving and loading undoes it; line scans cannot be calibrated; the map of a column is only accepted with a warning; the unit of rows is dropped; extract_grid keeps the offsets of axes, so that all its patterns move, and its crystal map is silently replaced by an empty one when saved; a line scan without map or a single row of a map gets a map on loading that cannot be assigned to it; offsets and units are not saved."
  },
  {
   "property": "C94",
   "status": "partial",
   "theorems": [
    "C94_tiles_between_their_lines",
    "C94_outer_lines",
    "C94_channels",
    "C94_square_tiles_outlined",
    "C94_oblong_tiles_refuted",
    "C94_scaled_axes_refuted",
    "C94_indivisible_detector_refuted",
    "C94_one_label_per_tile",
    "C94_labels_in_their_tiles",
    "C94_labels_of_scaled_axes_refuted",
    "C94_negative_index_refuted"
   ],
   "note": "Lines are proved right for all axes, labels and rectangles for axes of scale 1 and (rectangles) square tiles that divide the detector. Refuted: the offset from the corner to the centre of a rectangle is added with height and width exchanged, so that rectangles of oblong tiles are displaced; labels and rectangles ignore the scale of the axes; the size of the rectangles is rounded down; the index -1 colours the last tile, but is the far edge of the detector in roi_from_grid."
  },
  {
   "property": "C95",
   "status": "partial",
   "theorems": [
    "C95_when_refused",
    "C95_scatter",
    "C95_map",
    "C95_space",
    "C95_figure_size",
    "C95_dictionary_reused_refuted",
    "C95_fit_plot",
    "C95_tilt_plot",
    "C95_marks_in_region",
    "C95_images",
    "C95_marks_on_their_pixels"
   ],
   "note": "Refuted: plot_pc writes the figure size into the dictionary of the caller, so that a second plot with the same dictionary gets the size of the first, whatever its orientation."
  },
  {
   "property": "C96",
   "status": "partial",
   "theorems": [
    "C96_dictionary_round_trip",
    "C96_text_back_iff",
    "C96_text_back_refuted",
    "C96_array_back_iff",
    "C96_silent_write_is_complete",
    "C96_unwritable_value_drops_the_rest",
    "C96_only_warned_keys_are_lost_refuted",
    "C96_slash_in_key_refuted",
    "C96_slash_below_a_value",
    "C96_values_that_raise",
    "C96_mixed_numbers_refuted",
    "C96_integers_among_floats"
   ],
   "note": "Refuted: texts with other than 7-bit characters are written as UTF-8, cut to one byte more than they have characters, and read as Latin-1; a value that cannot be written ends the loop, so that all later keys are lost without being named; keys with a slash become dictionaries; lists of numbers take the type of the first; a first axis of length one is dropped. Proved: every nested dictionary without these comes back equal, and the conditions on texts and arrays are exact."
  },
  {
   "property": "C97",
   "status": "partial",
   "theorems": [
    "C97_flat_pattern_refuted",
    "C97_equalized_iff",
    "C97_default_regions_iff",
    "C97_default_regions_refuted",
    "C97_default_regions_of_small_patterns_refuted",
    "C97_requested_regions",
    "C97_result_spans_data_type",
    "C97_each_pattern_on_its_own",
    "C97_warnings"
   ],
   "note": "Refuted: the default takes HyperSpy's (columns, rows) for (rows, columns), so that regions of oblong patterns have the quarters of height and width exchanged, and patterns with less than four rows or columns get regions of size zero. The equalizer of scikit-image is a parameter; patterns that are flat after equalization lose their intensities (refuted)."
  },
  {
   "property": "C98",
   "status": "partial",
   "theorems": [
    "C98_full_range_image_is_shown",
    "C98_order_and_range",
    "C98_dull_image_refuted",
    "C98_grey_image_refuted",
    "C98_data_types"
   ],
   "note": "Refuted: images that do not contain both black and full brightness in some channel are stretched to the full range, and an image of one grey level becomes black. Proved for all other images, and the order of all channels for every image."
  },
  {
   "property": "C99",
   "status": "partial",
   "theorems": [
    "C99_as_created_after_make_lines",
    "C99_as_created_without_new_points",
    "C99_latest_values",
    "C99_same_place_in_first_pattern_refuted",
    "C99_same_distance_apart",
    "C99_pattern_coordinates_current",
    "C99_points_assigned_alone_refuted",
    "C99_other_number_of_points_fails",
    "C99_estimates_of_created",
    "C99_any_order_of_features",
    "C99_patterns_exchanged",
    "C99_plot_shows",
    "C99_plot_marks",
    "C99_plot_drawn_iff",
    "C99_lines_join_points",
    "C99_zorder_of_pc_refuted",
    "C99_half_a_pixel_refuted"
   ],
   "note": "Refuted: after an assignment to the points alone, the distance is still that of the old points (and cannot be read if their number changed) until make_lines is called; zorder in pc_kwargs has no effect; EBSDDetector.plot shows the PC half a pixel from where the calibration shows it. Proved for all other histories, and the rest for all objects."
  }
 ]
}