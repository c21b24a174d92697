{"id": "C01", "title": "Dictionary indexing returns the true best matches whatever the batch size", "statement": "For every experimental pattern, EBSD.dictionary_indexing() with a 'larger is better' metric returns min(keep_n, dictionary size) simulation indices and scores, sorted best first, all indices distinct, every score being the true similarity of the pattern with that dictionary entry, and no unreturned entry scoring better than a returned one. The returned scores do not depend on n_per_iteration.", "quantifier": "every dictionary size, every score table with scores above the metric's worst value (-1), every keep_n >= 1 and every n_per_iteration >= 1", "why_tests_cant": "A test samples a few dictionary/batch sizes; the merge of running and batch results must be right for every split, including a short last batch and keep_n larger than a batch.", "anchors": ["src/kikuchipy/indexing/_dictionary_indexing.py:_dictionary_indexing", "src/kikuchipy/indexing/_dictionary_indexing.py:_match_chunk"]}
{"id": "C02", "title": "Dictionary indexing honours a 'smaller is better' similarity metric", "statement": "If a custom SimilarityMetric declares sign = -1 (smaller is better), dictionary_indexing() returns the keep_n dictionary entries with the smallest scores, sorted ascending.", "quantifier": "every dictionary, score table, keep_n and n_per_iteration", "why_tests_cant": "Only the two built-in metrics (both sign=+1) are exercised by tests; the claim is about every metric the extension API admits.", "anchors": ["src/kikuchipy/indexing/_dictionary_indexing.py:_match_chunk", "src/kikuchipy/indexing/similarity_metrics/_similarity_metric.py:SimilarityMetric"]}
{"id": "C03", "title": "Navigation masks only select map points in dictionary indexing", "statement": "With a navigation mask, every map point that is not masked out gets exactly the indices, scores and rotations it would get without a mask, and they are stored at that map point; masked-out points are flagged not in the data and never receive another point's result.", "quantifier": "every map size, mask and per-point result", "why_tests_cant": "The scatter of compressed results back to map points has to be right for every mask pattern, not only the rectangular ones in the tests.", "anchors": ["src/kikuchipy/indexing/_dictionary_indexing.py:_dictionary_indexing"]}
{"id": "C04", "title": "Orientation similarity map values are bounded, symmetric-set based and consistent across n_best", "statement": "orientation_similarity_map() gives each point the mean, over its in-map nearest neighbours selected by the footprint, of the number of shared simulation indices among the n best; the value lies in [0, n] (in [0, 1] when normalized), depends only on the set of the first n indices and not on their order, and layer k of a multi-layer result is exactly the single-layer map computed with n_best - k.", "quantifier": "every map shape, footprint, simulation index table without repeats per point, n_best and from_n_best", "why_tests_cant": "Bounds and order-independence must hold for all index tables; tests compare with one stored map.", "anchors": ["src/kikuchipy/indexing/_orientation_similarity_map.py:orientation_similarity_map"]}
{"id": "C05", "title": "Merging crystal maps keeps, at every point, the phase with the best score", "statement": "merge_crystal_maps() assigns to each map point the phase, rotation and scores of a map whose (mean of the n best) score is the best among the maps that contain the point; when no map contains the point a defined result is produced; a point is marked not indexed exactly when every map containing it says so.", "quantifier": "every number of maps, map size, score table, navigation masks, mean_n_best and greater_is_better", "why_tests_cant": "Which map wins is a per-point choice over all score tables and mask combinations.", "anchors": ["src/kikuchipy/indexing/_merge_crystal_maps.py:merge_crystal_maps"]}
{"id": "C06", "title": "Merged simulation indices from different dictionaries never collide and merged scores are a sorted permutation", "statement": "When simulation indices are merged, two entries from different maps never end up with the same index, entries from the same map keep their mutual differences, and the merged scores/indices of a point are a best-first permutation of all the input scores with every score still paired with its own index.", "quantifier": "every number of maps and every table of non-negative simulation indices and scores", "why_tests_cant": "Disjointness depends on the extrema of arbitrary index tables.", "anchors": ["src/kikuchipy/indexing/_merge_crystal_maps.py:merge_crystal_maps"]}
{"id": "C07", "title": "Similarity scores are bounded by one in absolute value", "statement": "The normalized cross-correlation and normalized dot product of two patterns always lie in [-1, 1] (in [0, 1] for the normalized dot product of non-negative patterns), for any signal mask, and the objective minimised in refinement lies in [0, 2].", "quantifier": "every pair of patterns of equal size with non-zero variance (norm), every mask", "why_tests_cant": "The bound is Cauchy-Schwarz for all real vectors of all lengths.", "anchors": ["src/kikuchipy/indexing/similarity_metrics/_normalized_cross_correlation.py:NormalizedCrossCorrelationMetric", "src/kikuchipy/indexing/similarity_metrics/_normalized_dot_product.py:NormalizedDotProductMetric", "src/kikuchipy/indexing/_refinement/_objective_functions.py"]}
{"id": "C08", "title": "Normalized cross-correlation ignores contrast and brightness", "statement": "The NCC score is unchanged when either pattern is replaced by a*pattern + b with a > 0, changes sign for a < 0, and is exactly 1 for a pattern matched with itself; hence rescaling experimental patterns before matching or refinement cannot change any score.", "quantifier": "every pair of non-constant patterns and every a, b", "why_tests_cant": "An identity over all real vectors; float tests only see rounding-level samples.", "anchors": ["src/kikuchipy/indexing/similarity_metrics/_normalized_cross_correlation.py", "src/kikuchipy/pattern/_pattern.py:_rescale_without_min_max_1d_float32", "src/kikuchipy/indexing/_refinement/_solvers.py:_prepare_pattern"]}
{"id": "C09", "title": "Projection center conventions are inverse conversions", "statement": "Converting PCs from any supported convention (Bruker, EDAX/TSL, Oxford, EMsoft v4 and v5) to Bruker's and back returns the original PC, in both orders, so a detector created in one convention reports the same numbers in that convention; conversions between any two conventions compose consistently.", "quantifier": "every PC triple, detector shape, binning and pixel size > 0 and EMsoft version", "why_tests_cant": "An algebraic identity over all reals and shapes (non-square detectors are where mistakes hide).", "anchors": ["src/kikuchipy/detectors/_ebsd_detector.py:EBSDDetector._set_pc_in_bruker_convention", "src/kikuchipy/detectors/_ebsd_detector.py:EBSDDetector.pc_tsl", "src/kikuchipy/detectors/_ebsd_detector.py:EBSDDetector.pc_oxford", "src/kikuchipy/detectors/_ebsd_detector.py:EBSDDetector.pc_emsoft"]}
{"id": "C10", "title": "Pixel and gnomonic coordinates are inverse maps anchored at the detector edges", "statement": "to-pixel after to-gnomonic (and vice versa) is the identity for every PC, the pixel-frame bounds of the detector map to its gnomonic bounds, the projection center maps to the gnomonic origin and the maps are affine.", "quantifier": "every detector shape, PC with PCz != 0 and every point", "why_tests_cant": "Identity over all real coordinates and PCs.", "anchors": ["src/kikuchipy/detectors/_convert_detector_coordinates.py", "src/kikuchipy/detectors/_ebsd_detector.py:EBSDDetector.gnomonic_bounds"]}
{"id": "C11", "title": "Cropping a detector keeps the gnomonic position of every remaining pixel", "statement": "After EBSDDetector.crop(extent), the gnomonic coordinates of each remaining pixel are the ones it had before cropping; cropping twice equals cropping once with the composed extent; all other detector attributes (tilts, twist, pixel size, binning, navigation shape) are kept.", "quantifier": "every detector shape, extent inside the detector, and PC", "why_tests_cant": "Holds for all extents and PCs or not at all; tests look at a few crops of one detector.", "anchors": ["src/kikuchipy/detectors/_ebsd_detector.py:EBSDDetector.crop"]}
{"id": "C12", "title": "The sample-to-detector transformation is a proper rotation", "statement": "The matrix behind EBSDDetector.sample_to_detector is orthogonal with determinant +1 for every sample tilt, detector tilt, azimuthal and twist angle, so no direction changes length or handedness.", "quantifier": "every quadruple of angles", "why_tests_cant": "A trigonometric identity for all angles.", "anchors": ["src/kikuchipy/detectors/_ebsd_detector.py:_sample_to_detector_matrix"]}
{"id": "C13", "title": "gnomonic r_max is the largest gnomonic radius on the detector", "statement": "EBSDDetector.r_max is the gnomonic distance of the detector corner farthest from the projection center, so all pixels lie within it.", "quantifier": "every PC (PCx, PCy anywhere, PCz > 0) and shape", "why_tests_cant": "Which corner is farthest depends on the PC; tests use few PCs.", "anchors": ["src/kikuchipy/detectors/_ebsd_detector.py:EBSDDetector.r_max"]}
{"id": "C14", "title": "PC extrapolation reproduces a known plane of projection centers", "statement": "EBSDDetector.extrapolate_pc() gives the mean PC at the mean position of the given PCs, changes affinely with position, keeps all PCs on one plane with inclination given by the tilts, and depends only on the mean position of the PCs given in the documented (2, n) index order.", "quantifier": "every map shape, step sizes, tilts, PCs and index lists", "why_tests_cant": "Symbolic identity over all positions and the documented index layouts.", "anchors": ["src/kikuchipy/detectors/_ebsd_detector.py:EBSDDetector.extrapolate_pc"]}
{"id": "C15", "title": "Fitting a plane to extrapolated PCs recovers the tilt that generated them", "statement": "fit_pc() estimates the sample tilt of a detector whose PCs were generated by extrapolate_pc() as the sample tilt itself, whatever the detector tilt.", "quantifier": "every sample tilt and detector tilt", "why_tests_cant": "The two formulas use different sign conventions; only zero detector tilt is tested.", "anchors": ["src/kikuchipy/detectors/_ebsd_detector.py:EBSDDetector.fit_pc", "src/kikuchipy/detectors/_ebsd_detector.py:EBSDDetector.extrapolate_pc"]}
{"id": "C16", "title": "Detector text files round-trip", "statement": "EBSDDetector.save() followed by load() gives a detector with the same shape, navigation shape, tilts, binning, pixel size, and PCs equal up to the 7 printed decimals of the chosen convention, for every convention.", "quantifier": "every detector and convention", "why_tests_cant": "Needs all navigation shapes (including (n,), (1, n), (n, 1)) and all conventions.", "anchors": ["src/kikuchipy/io/_detectors.py", "src/kikuchipy/detectors/_ebsd_detector.py:EBSDDetector.save"]}
{"id": "C17", "title": "Grid indices lie inside the map, evenly spaced and centred", "statement": "grid_indices(grid_shape, nav_shape) returns strictly increasing indices with constant spacing, all inside the map, with left and right margins differing by at most one; and the number of indices per dimension is the requested grid_shape.", "quantifier": "every grid and map size", "why_tests_cant": "Integer rounding has to be right for every pair of sizes.", "anchors": ["src/kikuchipy/signals/util/array_tools.py:grid_indices", "src/kikuchipy/signals/ebsd.py:EBSD.extract_grid"]}
{"id": "C18", "title": "Neighbour dot products do not depend on chunking", "statement": "get_average_neighbour_dot_product_map() and get_neighbour_dot_product_matrices() of a lazy signal are the same for every chunking of the navigation axes and equal to the non-lazy result.", "quantifier": "every map size, chunking and window shape", "why_tests_cant": "Overlap depth has to cover the window for all window sizes and chunk boundaries.", "anchors": ["src/kikuchipy/signals/util/_dask.py:_get_chunk_overlap_depth", "src/kikuchipy/signals/ebsd.py:EBSD.get_average_neighbour_dot_product_map", "src/kikuchipy/filters/window.py:Window.n_neighbours"]}
{"id": "C19", "title": "The average neighbour dot product map equals the mean of the neighbour dot product matrices", "statement": "Averaging each point's matrix of neighbour dot products (excluding the point itself and outside-map neighbours) gives the same map as computing it directly from the patterns; with normalization all values lie in [-1, 1].", "quantifier": "every map shape, window and set of patterns", "why_tests_cant": "Two code paths must agree for every window and border point.", "anchors": ["src/kikuchipy/signals/util/_map_helper.py"]}
{"id": "C20", "title": "Averaging neighbour patterns is chunk independent and a proper weighted mean", "statement": "average_neighbour_patterns() gives each pattern the window-weighted mean over in-map neighbours (before intensity rescaling), independent of chunking and execution order, with weights renormalised at map borders; multiplying the window by a constant does not change the result.", "quantifier": "every map, window, chunking and schedule", "why_tests_cant": "Quantifies over all schedules and chunkings.", "anchors": ["src/kikuchipy/signals/ebsd.py:EBSD.average_neighbour_patterns", "src/kikuchipy/pattern/chunk.py:_average_neighbour_patterns"]}
{"id": "C21", "title": "Chunking helpers cover the data exactly", "statement": "get_chunking() returns chunks that cover each axis exactly once, never splits signal axes, and respects chunk_shape; recomputing with other chunk sizes never changes data.", "quantifier": "every data shape, chunk_shape, chunk_bytes and dtype", "why_tests_cant": "All shapes and byte limits.", "anchors": ["src/kikuchipy/signals/util/_dask.py:get_chunking"]}
{"id": "C22", "title": "Downsampling averages disjoint blocks and keeps the detector consistent", "statement": "downsample(factor) replaces each disjoint factor x factor block by its mean before rescaling to the data type range; the new detector has the new shape and binning multiplied by factor, every physical point keeps its gnomonic coordinates; with inplace=False the original signal, including its detector, is unchanged.", "quantifier": "every pattern shape divisible by factor, every pattern, every factor > 1", "why_tests_cant": "Aliasing is invisible unless the original is inspected after every kind of call.", "anchors": ["src/kikuchipy/signals/ebsd.py:EBSD.downsample", "src/kikuchipy/pattern/_pattern.py:_bin2d", "src/kikuchipy/pattern/_pattern.py:_downsample2d"]}
{"id": "C23", "title": "Intensity rescaling maps exactly onto the output range and keeps order", "statement": "rescale_intensity() maps in_range affinely onto out_range: minimum to minimum, maximum to maximum, order of pixels kept, values outside in_range clipped, all outputs inside out_range, rescaling twice equals once; with relative=True one common map is used for all patterns.", "quantifier": "every pattern with max > min, every in/out range", "why_tests_cant": "Monotonicity and exact range over all patterns and data types.", "anchors": ["src/kikuchipy/pattern/_pattern.py:rescale_intensity", "src/kikuchipy/pattern/_pattern.py:_rescale_with_min_max", "src/kikuchipy/signals/_kikuchipy_signal.py:KikuchipySignal2D.rescale_intensity"]}
{"id": "C24", "title": "Background removal never leaves the data type range", "statement": "Static (subtract/divide) and dynamic background removal return patterns spanning exactly the data type's range (or keep relative intensities when scale_bg is used as documented) and do not change the caller's arrays or, with inplace=False, the signal.", "quantifier": "every non-degenerate pattern, background and operation", "why_tests_cant": "Range and non-interference for all inputs.", "anchors": ["src/kikuchipy/pattern/_pattern.py:_remove_static_background_subtract", "src/kikuchipy/pattern/_pattern.py:remove_dynamic_background", "src/kikuchipy/signals/ebsd.py:EBSD.remove_dynamic_background"]}
{"id": "C25", "title": "Slicing and cropping signals keep detector, background and crystal map consistent", "statement": "After isig/inav slicing or crop(), the detector shape equals the pattern shape, the detector's gnomonic coordinates of each remaining pixel, the static background and the crystal map correspond to the sliced region, and the original signal's attributes are not modified.", "quantifier": "every slice (start/stop given, omitted or negative) and signal shape", "why_tests_cant": "All forms of slices; the tests use start and stop both given.", "anchors": ["src/kikuchipy/signals/ebsd.py:_update_custom_attributes", "src/kikuchipy/signals/ebsd.py:EBSD._slicer", "src/kikuchipy/signals/ebsd.py:EBSD.crop"]}
{"id": "C26", "title": "NORDIF binary files round-trip", "statement": "Saving patterns to a NORDIF .dat file and loading them with the same scan and pattern size returns the same patterns in the same map positions, lazily or not, with axes named and scaled for navigation and detector dimensions.", "quantifier": "every scan size, pattern size, data type and lazy flag", "why_tests_cant": "All shapes including single-row scans; byte-level contract.", "anchors": ["src/kikuchipy/io/plugins/nordif/_api.py:file_reader", "src/kikuchipy/io/plugins/nordif/_api.py:file_writer"]}
{"id": "C27", "title": "EDAX binary reader places every pattern at its map position with the right step sizes", "statement": "Loading an EDAX .up1/.up2 file returns pattern i of the file at row i // nx, column i % nx, using bytes offset + i*sy*sx*itemsize onwards, rejects unsupported versions and inconsistent navigation shapes, and scales each navigation axis with its own step size.", "quantifier": "every header (version, offset, sizes, hexagonal flag), nav_shape and file size", "why_tests_cant": "Offset arithmetic over all headers and file sizes.", "anchors": ["src/kikuchipy/io/plugins/edax_binary/_api.py"]}
{"id": "C28", "title": "Oxford binary reader returns each pattern at its own map position", "statement": "Loading an Oxford .ebsp file returns at every map position the pattern whose recorded map position it is, together with its own beam coordinates, whatever the order in which patterns are stored in the file and whichever are missing.", "quantifier": "every order of stored patterns, every subset of non-indexed patterns, every file version", "why_tests_cant": "All permutations and all versions of a byte format.", "anchors": ["src/kikuchipy/io/plugins/oxford_binary/_api.py"]}
{"id": "C29", "title": "kikuchipy h5ebsd files round-trip", "statement": "Saving a signal to a kikuchipy h5ebsd file and loading it returns the same patterns, navigation and signal shapes, step sizes, detector PCs and tilts, and static background (None stays None).", "quantifier": "every signal with zero, one or two navigation axes", "why_tests_cant": "All shapes (unit axes!), PC layouts and optional attributes.", "anchors": ["src/kikuchipy/io/plugins/kikuchipy_h5ebsd/_api.py", "src/kikuchipy/io/plugins/_h5ebsd.py"]}
{"id": "C30", "title": "save() never destroys data without permission and adding a scan preserves the others", "statement": "EBSD.save() modifies an existing file only if overwrite=True, or the user answers yes, or a scan is added; adding a scan leaves every other scan in the file untouched and uses a scan number not in use.", "quantifier": "every combination of overwrite, add_scan, existing files, user answers and histories of saves", "why_tests_cant": "Decision table times all histories of calls and interactive answers.", "anchors": ["src/kikuchipy/io/_io.py:_save", "src/kikuchipy/io/plugins/kikuchipy_h5ebsd/_api.py:KikuchipyH5EBSDWriter.get_valid_scan_number"]}
{"id": "C31", "title": "Interrupted saves leave the previous data readable", "statement": "If save() to an existing h5ebsd file is interrupted at any point, every scan stored before the call can still be read; when overwriting, either the old or the new scan is complete.", "quantifier": "every crash point during a save and every prior file content", "why_tests_cant": "Crash points cannot be enumerated by tests.", "anchors": ["src/kikuchipy/io/plugins/kikuchipy_h5ebsd/_api.py:KikuchipyH5EBSDWriter.write"]}
{"id": "C32", "title": "Bruker region-of-interest patterns are placed at their beam positions", "statement": "Loading a Bruker h5ebsd file with a rectangular region of interest puts the pattern acquired at beam index (iy, ix) at map row iy - min, column ix - min whatever the acquisition order, and refuses any region that is not a complete rectangle.", "quantifier": "every list of beam indices", "why_tests_cant": "All permutations of all index sets.", "anchors": ["src/kikuchipy/io/plugins/bruker_h5ebsd/_api.py:BrukerH5EBSDReader.scan2dict", "src/kikuchipy/io/plugins/bruker_h5ebsd/_api.py:_bruker_roi_is_rectangular"]}
{"id": "C33", "title": "Reading patterns from a directory is independent of the directory listing order", "statement": "Loading a directory of images with (x, y) coordinates in the file names puts each image at the row/column given by the rank of its y/x coordinate, independent of the order in which the operating system lists files.", "quantifier": "every listing order and coordinate set forming a full grid", "why_tests_cant": "All permutations of directory listings.", "anchors": ["src/kikuchipy/io/plugins/ebsd_directory/_api.py:file_reader"]}
{"id": "C34", "title": "EMsoft energy selection returns exactly the requested energies", "statement": "Loading a master pattern with an energy range returns exactly the patterns whose energy lies in the closed range, in order, and labels the first with its energy; a single energy returns the closest one.", "quantifier": "every sorted energy list and range/energy", "why_tests_cant": "All ranges, including those between two energies.", "anchors": ["src/kikuchipy/io/plugins/_emsoft_master_pattern.py:get_data_shape_slices"]}
{"id": "C35", "title": "Master pattern signal axes are centred", "statement": "The height and width axes of a loaded master pattern of odd side length 2*npx+1 are centred so that the central pixel has coordinate 0.", "quantifier": "every npx", "why_tests_cant": "Integer division of a negative number: true for every size or wrong for every size.", "anchors": ["src/kikuchipy/io/plugins/_emsoft_master_pattern.py:EMsoftMasterPatternReader.read"]}
{"id": "C36", "title": "Square Lambert projection and its inverse", "statement": "The square Lambert projection used to look up master pattern intensities is a bijection with its inverse: projecting the vector obtained from any point of the square gives that point again; all projected coordinates stay inside the square and the inverse returns unit vectors on the upper hemisphere.", "quantifier": "every point of the square / every non-zero vector", "why_tests_cant": "Trigonometric identities over the reals, case splits on diagonals.", "anchors": ["src/kikuchipy/signals/util/_master_pattern.py:_vector2lambert", "src/kikuchipy/signals/util/_master_pattern.py:_lambert2vector"]}
{"id": "C37", "title": "Master pattern interpolation never reads outside the array and never overshoots", "statement": "For every direction, the four master pattern pixels read by the bilinear interpolation are inside the array, the weights are in [0, 1] and sum to one, so each simulated intensity lies between the smallest and largest of the four pixels; a direction hitting a pixel exactly returns that pixel.", "quantifier": "every non-zero direction and square master pattern of any size", "why_tests_cant": "Out-of-bounds reads in compiled code are silent; the claim is for every direction on the sphere.", "anchors": ["src/kikuchipy/signals/util/_master_pattern.py:_get_lambert_interpolation_parameters", "src/kikuchipy/signals/util/_master_pattern.py:_get_pixel_from_master_pattern"]}
{"id": "C38", "title": "Direction cosines are unit vectors through pixel centres, same for fixed and varying PCs", "statement": "The directions used to simulate patterns are unit vectors pointing from the source point to the centre of each selected pixel in detector order; patterns simulated with one common PC and with the same PC repeated for each pattern are identical; a signal mask selects exactly its pixels in order.", "quantifier": "every detector geometry, PC, mask", "why_tests_cant": "Two compiled code paths for all geometries.", "anchors": ["src/kikuchipy/signals/util/_master_pattern.py:_get_direction_cosines_for_fixed_pc", "src/kikuchipy/signals/util/_master_pattern.py:_get_direction_cosines_for_varying_pc"]}
{"id": "C39", "title": "Simulated pattern i uses rotation i and projection center i, whatever the chunking", "statement": "get_patterns() returns at navigation position i the pattern for rotation i and PC i for any chunk size, and raises an error whenever the detector has several PCs and its navigation shape differs from the rotations' shape.", "quantifier": "every rotations shape, detector navigation shape and chunk size", "why_tests_cant": "All combinations of shapes and chunk boundaries.", "anchors": ["src/kikuchipy/signals/ebsd_master_pattern.py:EBSDMasterPattern.get_patterns"]}
{"id": "C40", "title": "Refinement bounds contain the starting point and stay within the trust region", "statement": "For every trust region given in degrees (and PC fractions), the bounds passed to the optimiser contain the starting orientation/PC, are within the trust region of it, and scale with the trust region; the arguments passed by the caller are not changed, so repeating the call gives the same bounds.", "quantifier": "every starting point within the absolute limits, every non-negative trust region of any numeric type", "why_tests_cant": "Data type and aliasing effects depend on how the argument is passed.", "anchors": ["src/kikuchipy/indexing/_refinement/_refinement.py:_RefinementSetup.get_bound_constraints"]}
{"id": "C41", "title": "Refinement calls do not influence each other", "statement": "The optimiser settings used by a refinement call depend only on its own arguments, not on earlier refinement calls in the same session (with other optimisers, modes or packages).", "quantifier": "every history of refinement calls", "why_tests_cant": "Histories of calls; state is shared in class attributes.", "anchors": ["src/kikuchipy/indexing/_refinement/_refinement.py:_RefinementSetup"]}
{"id": "C42", "title": "Refinement results are stored at the points they were computed for", "statement": "After refinement with a navigation mask and/or partially indexed map, the refined rotation, score and evaluation count computed for the k-th refined point is stored at that map point; other points keep the documented fill values; with pseudo-symmetry operators the best-scoring variant and its index are returned.", "quantifier": "every mask, indexed set and result table", "why_tests_cant": "All masks; index bookkeeping.", "anchors": ["src/kikuchipy/indexing/_refinement/_refinement.py:compute_refine_orientation_results", "src/kikuchipy/signals/util/_crystal_map.py:_get_indexed_points_in_data_in_xmap", "src/kikuchipy/indexing/_refinement/_solvers.py"]}
{"id": "C43", "title": "Moving-screen calibration recovers the exact projection center", "statement": "If the points in the two patterns are exact perspective images of the same features, every estimate of PCCalibrationMovingScreen equals the true (PCx, PCy, PCz).", "quantifier": "every true PC, camera displacement and set of features in general position", "why_tests_cant": "Algebraic identity over all configurations.", "anchors": ["src/kikuchipy/detectors/_calibration.py:PCCalibrationMovingScreen", "src/kikuchipy/detectors/_calibration.py:_get_intersection_from_lines"]}
{"id": "C44", "title": "FFT (Barnes) filtering equals direct correlation with edge extension", "statement": "Filtering a pattern with a window in the frequency domain gives at every pixel the window-weighted sum over the pattern extended by its edge values, with no wrap-around contamination.", "quantifier": "every pattern and window shape", "why_tests_cant": "Wrap-around must not reach the cropped region for any pair of shapes.", "anchors": ["src/kikuchipy/filters/fft_barnes.py"]}
{"id": "C45", "title": "Virtual BSE grid tiles partition the detector", "statement": "The virtual imaging grid splits the detector into non-overlapping tiles that cover all pixels, and the image of a tile is the sum of exactly its pixels.", "quantifier": "every detector and grid shape", "why_tests_cant": "Rounding of tile borders for all sizes.", "anchors": ["src/kikuchipy/imaging/vbse.py:VirtualBSEImager"]}
{"id": "C46", "title": "Rotations used in simulation are unit quaternions that preserve lengths and compose", "statement": "rotation_from_euler gives a unit quaternion with non-negative real part representing the same rotation as the Bunge Euler angles, and rotate_vector preserves lengths and angles.", "quantifier": "every Euler triple and vector", "why_tests_cant": "Trigonometric identity over the reals.", "anchors": ["src/kikuchipy/_utils/numba.py:rotation_from_euler", "src/kikuchipy/_utils/numba.py:rotate_vector"]}
{"id": "C47", "title": "Window geometry", "statement": "A circular Window keeps exactly the coefficients within the radius of the origin, is symmetric for odd sizes, and windows of any shape contain their origin; the number of neighbours reported per axis is the largest offset actually used.", "quantifier": "every window shape", "why_tests_cant": "All shapes, in particular even sizes.", "anchors": ["src/kikuchipy/filters/window.py:Window"]}
{"id": "C48", "title": "Operations with inplace=False do not change the signal and return what inplace=True would produce", "statement": "For rescale_intensity, normalize_intensity, background removal, fft_filter, downsample and average_neighbour_patterns, inplace=False leaves the signal (data, detector, static background, crystal map) unchanged, returns a signal whose data equals what inplace=True would have stored, and later in-place changes to the returned signal do not affect the original.", "quantifier": "every operation and every later sequence of in-place operations on the two signals", "why_tests_cant": "Histories of operations on aliased objects.", "anchors": ["src/kikuchipy/signals/ebsd.py", "src/kikuchipy/signals/_kikuchipy_signal.py:KikuchipySignal2D._set_custom_attributes"]}
{"id": "C49", "title": "Hough indexing results conversion keeps its inputs", "statement": "xmap_from_hough_indexing_data() builds a crystal map whose entries are those of the chosen solution at each point (identity rotation where not indexed) and leaves the data array passed by the caller unchanged.", "quantifier": "every result array", "why_tests_cant": "Aliasing through structured-array views.", "anchors": ["src/kikuchipy/indexing/_hough_indexing.py:xmap_from_hough_indexing_data"]}
{"id": "C50", "title": "Virtual BSE image methods forward their arguments", "statement": "VirtualBSEImage.normalize_intensity() and the other re-exported methods behave as the inherited methods for the same arguments.", "quantifier": "every argument combination", "why_tests_cant": "Every positional/keyword combination.", "anchors": ["src/kikuchipy/signals/virtual_bse_image.py:VirtualBSEImage.normalize_intensity"]}
{"id": "C51", "title": "Loading several scans labels each signal with its own file", "statement": "Every signal returned by load() carries the directory, base name and extension of the file it was read from, so that save() without a name targets that file's directory.", "quantifier": "every number of scans returned and every path", "why_tests_cant": "Loop over returned scans; only one-scan loads are tested.", "anchors": ["src/kikuchipy/io/_io.py:load"]}
{"id": "C52", "title": "Decomposition models do not disturb learning results", "statement": "get_decomposition_model() leaves factors and loadings of the signal as before, whether it succeeds or fails, selects exactly the requested components, and its rechunking always yields positive chunk sizes and terminates.", "quantifier": "every learning result shape, components argument and chunk size", "why_tests_cant": "All shapes; termination.", "anchors": ["src/kikuchipy/signals/ebsd.py:EBSD.get_decomposition_model", "src/kikuchipy/signals/util/_dask.py:_rechunk_learning_results", "src/kikuchipy/signals/util/_dask.py:_update_learning_results"]}
{"id": "C53", "title": "Gnomonic pixel scale is the distance of neighbouring pixels", "statement": "EBSDDetector.x_scale and y_scale (documented as the width and height of a pixel in gnomonic coordinates) equal the difference in gnomonic coordinates of two horizontally (vertically) neighbouring pixels as given by to_gnomonic_coords().", "quantifier": "every detector shape and PC", "why_tests_cant": "An identity between two formulas over all shapes; tests only compare with stored numbers.", "anchors": ["src/kikuchipy/detectors/_ebsd_detector.py:EBSDDetector.x_scale", "src/kikuchipy/detectors/_ebsd_detector.py:EBSDDetector.to_gnomonic_coords"]}
{"id": "C54", "title": "Extrapolated PCs lie on the sample plane seen through the sample-to-detector rotation", "statement": "The PC that extrapolate_pc() gives at a map point differs from the mean PC, in microns, exactly by the (reversed) displacement of the beam on the sample transformed with EBSDDetector.sample_to_detector (azimuthal and twist angles zero).", "quantifier": "every detector shape, pixel size, binning, tilts, step sizes, mean PC and map point", "why_tests_cant": "Consistency of two independent formulas for all angles.", "anchors": ["src/kikuchipy/detectors/_ebsd_detector.py:EBSDDetector.extrapolate_pc", "src/kikuchipy/detectors/_ebsd_detector.py:EBSDDetector.sample_to_detector"]}
{"id": "C55", "title": "Axes of loaded EMsoft master patterns describe their data", "statement": "Loading a master pattern from an EMsoft file gives axes named hemisphere (only if both hemispheres are read), energy (only if several energies are read), height and width, in the order of the data's axes, with the lengths of the data's axes and the energy step and units of the file, for every projection, hemisphere, energy selection and number of atom sites.", "quantifier": "every file with valid shapes, projection, hemisphere, energy selection and number of sites", "why_tests_cant": "Tests use files with one site; the result depends on the number of sites.", "anchors": ["src/kikuchipy/io/plugins/_emsoft_master_pattern.py:EMsoftMasterPatternReader.read"]}
{"id": "C56", "title": "Initial steps of refinements are used in the documented units", "statement": "The initial step size given to a refinement is used for each control variable in the unit the documentation states: degrees for Euler angles and fractions of the detector for PC components; a wrong number of steps is refused.", "quantifier": "every step size and refinement mode", "why_tests_cant": "Tests check that refinement runs with a given step, not which step in which unit the optimiser gets.", "anchors": ["src/kikuchipy/indexing/_refinement/_refinement.py:_RefinementSetup.set_optimization_parameters", "src/kikuchipy/signals/ebsd.py:EBSD.refine_orientation"]}
{"id": "C57", "title": "Refined patterns get their own bounds whatever the order of chunks", "statement": "When patterns are refined in parallel, every pattern is optimised exactly once, with its own bounds, pattern and parameters, for every division into chunks and every interleaving of the chunks.", "quantifier": "every chunking and every interleaving of chunk computations", "why_tests_cant": "A test run sees one interleaving out of exponentially many.", "anchors": ["src/kikuchipy/indexing/_refinement/_refinement.py:_refine_orientation_chunk_nlopt", "src/kikuchipy/indexing/_refinement/_refinement.py:_refine_orientation_chunk_scipy", "src/kikuchipy/indexing/_refinement/_solvers.py"]}
{"id": "C58", "title": "The starting point of a refinement is feasible with every optimiser", "statement": "With every supported optimiser, with or without a trust region, the bounds passed to the optimiser (if any) contain the starting point.", "quantifier": "every optimiser, mode, starting point and trust region or none", "why_tests_cant": "Tests combine few optimisers with few trust regions and check that scores change.", "anchors": ["src/kikuchipy/indexing/_refinement/_refinement.py:_RefinementSetup.get_bound_constraints", "src/kikuchipy/indexing/_refinement/_solvers.py"]}
{"id": "C59", "title": "Writing a decomposition model to file equals computing it and leaves nothing else behind", "statement": "get_decomposition_model_write() writes the same model as get_decomposition_model() computes, for every navigation shape, leaves the learning results unchanged and no temporary file in the directory, whether it succeeds or fails.", "quantifier": "every learning result, components argument, navigation shape and point of failure", "why_tests_cant": "Failures are not tested and test signals have two navigation axes.", "anchors": ["src/kikuchipy/signals/ebsd.py:LazyEBSD.get_decomposition_model_write"]}
{"id": "C60", "title": "Refinement scores can be reproduced by simulation", "statement": "The score that refinement of orientations, PCs or both reports for a pattern is the normalized cross-correlation, over the pixels not masked out, of this pattern with the pattern EBSDMasterPattern.get_patterns() returns for the refined orientation and PC, whatever the data types of patterns and master pattern.", "quantifier": "every master pattern, detector, mask, pattern, start and optimiser that reports the value of the objective at the parameters it returns", "why_tests_cant": "Tests compare scores with stored numbers for one 32-bit float or one centrosymmetric master pattern.", "anchors": ["src/kikuchipy/indexing/_refinement/_objective_functions.py", "src/kikuchipy/indexing/_refinement/_solvers.py", "src/kikuchipy/indexing/_refinement/_refinement.py:_get_master_pattern_data", "src/kikuchipy/signals/ebsd_master_pattern.py:EBSDMasterPattern.get_patterns"]}
{"id": "C61", "title": "An extracted grid has the patterns, PCs and crystal map points of its positions", "statement": "extract_grid() returns a signal whose pattern at (i, j) is the one at the i-th row and j-th column of an evenly spaced, centred grid; if there is one PC per pattern, the PC at (i, j) is of the same position; the points of the crystal map are those of the patterns in the same order and the crystal map fits the new signal; everything else stays.", "quantifier": "every map shape, grid shape, detector and crystal map", "why_tests_cant": "Needs an argument over all grids and maps; the tests compare the result with the code's own indices.", "anchors": ["src/kikuchipy/signals/ebsd.py:EBSD.extract_grid", "src/kikuchipy/signals/util/array_tools.py:grid_indices"]}
{"id": "C62", "title": "Rebinning sums blocks and keeps the detector consistent", "statement": "rebin() returns a signal whose patterns (and static background) are sums over blocks, whose detector has the shape of the new patterns, whose binning follows the factor and in which every physical point keeps its gnomonic coordinates; if the map is rebinned, attributes of the old map points are dropped; the original signal is unchanged.", "quantifier": "every shape and every integer factor, with or without pixels left over", "why_tests_cant": "All factors and shapes; the tests use factors that divide and do not look at coordinates.", "anchors": ["src/kikuchipy/signals/ebsd.py:EBSD.rebin"]}
{"id": "C63", "title": "A signal stays consistent with its detector, background and crystal map", "statement": "After any history of intensity operations, slicing, cropping, grid extraction, rebinning, downsampling and setting of attributes, failed ones included, the detector has the shape of the patterns and one PC or one for each pattern, the static background has the shape of a pattern and the crystal map that of the map, so that the signal accepts its own attributes.", "quantifier": "every history of operations with any arguments", "why_tests_cant": "An invariant over histories of any length.", "anchors": ["src/kikuchipy/signals/ebsd.py:EBSD.detector", "src/kikuchipy/signals/ebsd.py:EBSD.xmap", "src/kikuchipy/signals/ebsd.py:EBSD.static_background", "src/kikuchipy/signals/ebsd.py:EBSD.rebin", "src/kikuchipy/signals/ebsd.py:_update_custom_attributes", "src/kikuchipy/signals/util/_detector.py:_detector_is_compatible_with_signal"]}
{"id": "C64", "title": "Normalized patterns have zero mean and the requested spread", "statement": "normalize_intensity() gives a pattern with mean 0 and the documented standard deviation, whatever its brightness and contrast were: patterns that differ by brightness and contrast give the same result, normalizing again changes nothing and the order of intensities is kept.", "quantifier": "every pattern with at least two intensities, every num_std > 0, with or without division by the square root of the number of pixels", "why_tests_cant": "Holds for all patterns and all affine changes of intensities; tests compare single numbers.", "anchors": ["src/kikuchipy/pattern/_pattern.py:normalize_intensity", "src/kikuchipy/signals/_kikuchipy_signal.py:KikuchipySignal2D.normalize_intensity"]}
{"id": "C65", "title": "Simulated Kikuchi lines are the traces of the lattice planes", "statement": "The lines of a geometrical simulation on a detector are, for each pattern, the parts inside the circle about the PC that contains the detector of the traces of the given lattice planes in this pattern's orientation; every plane whose trace passes over the detector has its line; pixel coordinates, PC and map markers are at the same places.", "quantifier": "every lattice, set of reflectors, detector (tilts, one or many PCs), map and orientation", "why_tests_cant": "A statement about all geometries; the tests compare a few stored coordinates.", "anchors": ["src/kikuchipy/simulations/kikuchi_pattern_simulator.py:KikuchiPatternSimulator.on_detector", "src/kikuchipy/simulations/_kikuchi_pattern_features.py:KikuchiPatternLine", "src/kikuchipy/simulations/_kikuchi_pattern_simulation.py:GeometricalKikuchiPatternSimulation"]}
{"id": "C66", "title": "Simulated zone axes are where traces cross", "statement": "Every zone axis shown in a pattern is a point where traces of two given planes cross, on the detector or less than a pixel outside, and the direction shown points there; every such crossing is shown.", "quantifier": "every lattice, set of reflectors, detector, map and orientation", "why_tests_cant": "All pairs of planes in all geometries; the tests compare a few stored coordinates.", "anchors": ["src/kikuchipy/simulations/kikuchi_pattern_simulator.py:KikuchiPatternSimulator.on_detector", "src/kikuchipy/simulations/_kikuchi_pattern_features.py:KikuchiPatternZoneAxis", "src/kikuchipy/simulations/_kikuchi_pattern_simulation.py:GeometricalKikuchiPatternSimulation.zone_axes_coordinates"]}
{"id": "C67", "title": "The interactive geometrical simulation agrees with the simulation on the detector", "statement": "For one pattern, the lines and zone axes that the interactive plot computes are the ones of KikuchiPatternSimulator.on_detector().", "quantifier": "every lattice, set of reflectors, detector with one PC and orientation", "why_tests_cant": "Two implementations of the same simulation must agree on all inputs.", "anchors": ["src/kikuchipy/simulations/_geometrical_simulation.py", "src/kikuchipy/simulations/kikuchi_pattern_simulator.py:KikuchiPatternSimulator.on_detector"]}
{"id": "C68", "title": "A kinematical master pattern is the sum of the Kikuchi bands of each direction", "statement": "calculate_master_pattern() gives a stereographic master pattern each pixel of which is the sum of the intensities (|F|, |F|^2 or 1) of the Kikuchi bands that the pixel's direction lies in, each band once; it has the symmetry of the reflectors; the two hemispheres show opposite directions; unknown arguments are refused; its axes fit its array.", "quantifier": "every set of reflectors with Bragg angles and structure factors, size, hemisphere and scaling", "why_tests_cant": "Holds for every direction and every set of reflectors; the tests look at shapes and mean intensities.", "anchors": ["src/kikuchipy/simulations/kikuchi_pattern_simulator.py:KikuchiPatternSimulator.calculate_master_pattern", "src/kikuchipy/simulations/kikuchi_pattern_simulator.py:get_pattern", "src/kikuchipy/_utils/vector.py:poles_from_hemisphere"]}
{"id": "C69", "title": "A kinematical master pattern does not depend on the number or timing of threads", "statement": "The parallel computation of a kinematical master pattern gives the same pattern as a serial one, whatever the distribution of reflectors among threads and the order of the threads' reads and writes.", "quantifier": "every distribution of reflectors among threads and every interleaving of their actions", "why_tests_cant": "Schedules cannot be enumerated by tests; the affected test is marked as flaky.", "anchors": ["src/kikuchipy/simulations/kikuchi_pattern_simulator.py:get_pattern"]}
{"id": "C70", "title": "Conversion of a master pattern to the Lambert projection keeps intensities with their directions", "statement": "as_lambert() gives a master pattern in the Lambert projection each pixel of which has the intensity that the stereographic pattern has in this pixel's direction, in the same hemisphere and at the same energy; all other attributes are kept; lazy signals are refused.", "quantifier": "every stereographic master pattern (size, energies, hemispheres) and every interpolation", "why_tests_cant": "A statement about every pixel and direction; the tests compare a few images to a stored one.", "anchors": ["src/kikuchipy/signals/_kikuchi_master_pattern.py:KikuchiMasterPattern.as_lambert"]}
{"id": "C71", "title": "Simulations use the requested energy and the right hemisphere of a master pattern", "statement": "get_patterns() uses the energy closest to the requested one, the highest by default, for both hemispheres, and refuses energies outside of the range; accepted master patterns give each direction its intensity: those with both hemispheres, and those with one for phases with inversion.", "quantifier": "every master pattern, energy and direction", "why_tests_cant": "All energies, symmetries and directions; the tests use a few cubic master patterns.", "anchors": ["src/kikuchipy/signals/_kikuchi_master_pattern.py:KikuchiMasterPattern._get_master_pattern_arrays_from_energy", "src/kikuchipy/signals/ebsd_master_pattern.py:EBSDMasterPattern._is_suitable_for_projection", "src/kikuchipy/signals/ebsd_master_pattern.py:EBSDMasterPattern.get_patterns"]}
{"id": "C72", "title": "Scans read from vendor h5ebsd files are at their places with fitting axes and detector", "statement": "Loading an EDAX or Oxford Instruments HDF5 file gives each requested scan with the pattern of each map point at its place, axes which fit the array, steps, and a detector with the shape, binning, tilts and projection centers of the file, one center per map point.", "quantifier": "every file of the format: map and line scans, complete and incomplete, any number of scans, any order and case of names", "why_tests_cant": "Every file layout and map size; the tests read one small map of each vendor.", "anchors": ["src/kikuchipy/io/plugins/_h5ebsd.py:H5EBSDReader", "src/kikuchipy/io/plugins/edax_h5ebsd/_api.py:EDAXH5EBSDReader.scan2dict", "src/kikuchipy/io/plugins/oxford_h5ebsd/_api.py:OxfordH5EBSDReader.scan2dict"]}
{"id": "C73", "title": "A file is read by the reader of its format", "statement": "load() reads a file with the reader of its format: the extension decides when it belongs to one reader; otherwise the manufacturer in the file decides, whatever else the file contains; otherwise its content decides; files which do not identify a format are refused. The order in which readers are registered and the case of names do not matter.", "quantifier": "every file extension, every HDF5 tree and every order of the registered readers", "why_tests_cant": "All file contents and registration orders (a directory listing); the tests load one file of each format.", "anchors": ["src/kikuchipy/io/_io.py:load", "src/kikuchipy/io/_io.py:_plugin_from_footprints"]}
{"id": "C74", "title": "A signal remembers its file, and save() writes to the documented file and format", "statement": "Every signal returned by load() and every saved signal remembers the folder, name and extension of its file; save() with a name writes to this file in the format of its extension (h5 without one); without a name it writes to the remembered file; the extension argument or the remembered extension decides the format otherwise; other extensions and dimensions are refused.", "quantifier": "every path, current directory, number of signals in the file, extension argument and signal dimension, and every order of the registered writers", "why_tests_cant": "All paths and histories of loading and saving; the tests use a few names in a temporary directory.", "anchors": ["src/kikuchipy/io/_io.py:load", "src/kikuchipy/io/_io.py:_save", "src/kikuchipy/signals/ebsd.py:EBSD.save"]}
{"id": "C75", "title": "Image quality depends on the sharpness of the pattern only", "statement": "get_image_quality() of a pattern is one minus the spectrum-weighted mean of the frequency weights divided by their mean. It does not change when the pattern is brightened or its contrast changed (normalize=True; contrast only without), translated cyclically, mirrored or transposed with its shape. It is undefined exactly for patterns with equal pixels (normalize=True) or only zeros (False). It is less than one, and its bound is attained by even patterns; one bright pixel has quality zero. In a map each point has the quality of its own pattern. Refuted: the documented maximum possible inertia is not a maximum, checkerboards have negative quality.", "quantifier": "all pattern shapes, all real-valued patterns, all positive and negative contrast factors, offsets and translations", "why_tests_cant": "invariance and bounds over a continuum of patterns and all shapes; tests check a few patterns", "anchors": ["src/kikuchipy/pattern/_pattern.py:get_image_quality", "src/kikuchipy/pattern/_pattern.py:fft_frequency_vectors", "src/kikuchipy/signals/ebsd.py:EBSD.get_image_quality"]}
{"id": "C76", "title": "Fourier transforms of patterns are undone and filters act on the frequencies asked for", "statement": "ifft() of fft() of a pattern gives the pattern times the apodization window, for any shift used in both. A shifted transform has the sum of the pattern in the middle. fft_filter() multiplies the spectrum of the pattern by the transfer function averaged over opposite frequencies, with the zero frequency of the transfer function in the corner, or in the middle with shift=True; a transfer function of ones changes nothing, one that passes the zero frequency only gives the mean, and filtering is linear. Refuted: with real_fft_only patterns of odd width lose a column; keyword arguments of ifft() with shift=True are refused.", "quantifier": "all shapes, patterns, windows, transfer functions and both values of shift and real_fft_only", "why_tests_cant": "identities over a continuum of arrays and all shapes, odd and even; tests use one or two shapes", "anchors": ["src/kikuchipy/pattern/_pattern.py:fft", "src/kikuchipy/pattern/_pattern.py:ifft", "src/kikuchipy/pattern/_pattern.py:fft_filter"]}
{"id": "C77", "title": "Datasets have the registered content, and are downloaded only with permission", "statement": "The path that a dataset function obtains leads to a file with the registered hash, whatever is in the package, in the cache and on the servers. Without allow_download nothing is downloaded or changed. A valid file is used as it is; damaged files in the package are refused, damaged files in the cache need permission. With permission and a server that gives the right file once in six attempts, a file is obtained from any state of the cache, a file in an archive at the latest in the second call. Files of other datasets stay, even if the program is stopped. Refuted: after a stop during the extraction the next call fails; clear_cache() does not empty the directory used if the environment variable has changed.", "quantifier": "all contents of package, cache and servers, all stopping points, all sequences of changes of the environment variable, uses and clearings", "why_tests_cant": "crash points and adversarial servers and disks are unbounded; tests use one or two files and a mocked server", "anchors": ["src/kikuchipy/data/_data.py:Dataset", "src/kikuchipy/data/_data.py:get_fetching_pooch", "src/kikuchipy/data/_data.py:clear_cache"]}
{"id": "C78", "title": "Low-pass and high-pass windows multiply each frequency by the documented value of its distance from zero", "statement": "A lowpass or highpass Window has the documented values: one inside (outside) the cut-off, a bell over two widths and zero beyond, always between zero and one and monotone in the distance. Used as transfer function in fft_filter(shift=True), it multiplies every frequency of the pattern by the value at its distance from the zero frequency, for odd and even shapes; a low-pass filter keeps the mean intensity, a high-pass filter with a cut-off above two widths removes it, and with the default width it keeps exp(-8) of it. A modified Hann window is positive, symmetric and grows to the middle, with a maximum of one for odd lengths. Refuted: the maximum is below one for even lengths, windows with a single row or column cannot be made, and a cut-off of zero with the default width gives an undefined value.", "quantifier": "all shapes, cut-offs, widths, distances and patterns", "why_tests_cant": "pointwise and spectral identities over a continuum of parameters and all shapes; tests check one or two windows", "anchors": ["src/kikuchipy/filters/window.py:lowpass_fft_filter", "src/kikuchipy/filters/window.py:highpass_fft_filter", "src/kikuchipy/filters/window.py:modified_hann", "src/kikuchipy/filters/window.py:Window", "src/kikuchipy/pattern/_pattern.py:fft_filter"]}
{"id": "C79", "title": "Planes fitted to projection centers are the planes they are in", "statement": "For projection centers (PCs) in a plane, not all on a line, estimate_xtilt_ztilt() returns the two tilts which turn the detector normal to the normal of the plane, in radians or degrees, and outliers given as an array have no effect. fit_pc() with the projective transformation reproduces PCs which are the image of their map positions under any projective transformation into any plane and finds the PCs of all other positions, and so reproduces the PCs of extrapolate_pc(). When PCy decreases with PCz, estimate_xtilt() and estimate_xtilt_ztilt() agree. Refuted: with ten or more PCs the plane found is in general another one, since each coordinate is trimmed on its own; outliers given as a list are ignored; two PCs give an error; and when PCy increases with PCz the two estimates differ.", "quantifier": "all planes, finite sets of PCs, masks, projective transformations and map positions; every singular value decomposition and every estimate of a transformation which meet their definitions", "why_tests_cant": "exactness over all planes and all transformations, and for every direction a decomposition may return; tests check a few PCs to a tolerance", "anchors": ["src/kikuchipy/detectors/_fit_projection_center.py:fit_hyperplane", "src/kikuchipy/detectors/_fit_projection_center.py:fit_pc_projective", "src/kikuchipy/detectors/_fit_projection_center.py:fit_plane_to_pc", "src/kikuchipy/detectors/_ebsd_detector.py:EBSDDetector.estimate_xtilt", "src/kikuchipy/detectors/_ebsd_detector.py:EBSDDetector.estimate_xtilt_ztilt", "src/kikuchipy/detectors/_ebsd_detector.py:EBSDDetector.fit_pc"]}
{"id": "C80", "title": "Hough indexing puts each solution with its phase at its map point, and checks the indexer and the phases", "statement": "hough_indexing() only runs with an indexer of kikuchipy's convention, of the shape of the patterns, and with one PC or one PC per pattern, and with a phase list which has the indexer's phases in the same order with equal space groups; indexers made by EBSDDetector.get_indexer() from a fitting detector and the same phase list are always accepted, and have each phase's own reflectors. The crystal map has the solution of each pattern at the pattern's coordinates whatever the chunk size, with the phase it was indexed with if the phase IDs count from zero. hough_indexing_optimize_pc() returns a detector fitting the signal with the optimised PC of each pattern at its place. Refuted: other phase IDs are accepted but give points other phases; lattices are not equal to the 12th decimal as documented; the optimised detector loses pixel size and binning.", "quantifier": "all signals, phase lists, reflectors, detectors, chunk sizes and every indexer which treats each pattern on its own", "why_tests_cant": "alignment over all map shapes and phase lists, and acceptance for all pairs of detectors and signals; tests run one map with IDs from zero", "anchors": ["src/kikuchipy/signals/ebsd.py:EBSD.hough_indexing", "src/kikuchipy/signals/ebsd.py:EBSD.hough_indexing_optimize_pc", "src/kikuchipy/indexing/_hough_indexing.py:_get_pyebsdindex_phaselist", "src/kikuchipy/indexing/_hough_indexing.py:_indexer_is_compatible_with_kikuchipy", "src/kikuchipy/indexing/_hough_indexing.py:_phase_lists_are_compatible", "src/kikuchipy/detectors/_ebsd_detector.py:EBSDDetector.get_indexer"]}
{"id": "C81", "title": "Dictionary indexing runs with the same metric object do not influence each other", "statement": "dictionary_indexing() with the name of a metric compares, at each point not masked out, the unmasked pixels of the pattern with those of every dictionary pattern in the given data type, and at no other point. With a metric object the same holds for the masks and data type of that call when all three are given, or when no earlier call gave any. Refuted: a navigation mask given to an earlier call is used again when none is given, so that points are left out though all patterns should be indexed; a call refused for its data type makes later calls with the object fail; a signal mask with rows and columns exchanged is accepted.", "quantifier": "all series of calls with one metric object, and all signals, dictionaries, masks and data types of each call", "why_tests_cant": "a property of histories: any earlier call, even a failed one, may change the result of a later one; tests make a new metric or one call", "anchors": ["src/kikuchipy/signals/ebsd.py:EBSD.dictionary_indexing", "src/kikuchipy/signals/ebsd.py:EBSD._prepare_metric", "src/kikuchipy/indexing/similarity_metrics/_similarity_metric.py:SimilarityMetric", "src/kikuchipy/indexing/similarity_metrics/_normalized_cross_correlation.py:NormalizedCrossCorrelationMetric.prepare_experimental", "src/kikuchipy/indexing/similarity_metrics/_normalized_dot_product.py:NormalizedDotProductMetric.prepare_experimental"]}
{"id": "C82", "title": "The dynamic background is the documented Gaussian blur of each pattern, and what is removed from it", "statement": "The dynamic background of a pattern is, in the frequency domain, the mean of int(truncate * std) squared pixels with Gaussian weights around each pixel, with the pattern continued by its edge pixels. In either domain it is within the intensities of its pattern, so it fits the data type; its contrast and brightness are those of the pattern and that of a constant pattern is the pattern. Mirrored patterns have mirrored backgrounds in the spatial domain, and in the frequency domain for odd windows. get_dynamic_background() as 32-bit floats returns what remove_dynamic_background() with the same standard deviation removes; the result of the removal does not depend on the contrast of patterns nor, for subtraction, on their brightness. Refuted: windows with an even number of pixels, as for the defaults, shift the background by half a pixel; the Gaussian is cut off at half of the documented distance in the frequency domain; EBSD.get_dynamic_background() uses an eighth of the height instead of the width by default; it converts patterns to the requested data type before blurring, so intensities wrap around; lazy signals with the detector in several chunks get other backgrounds.", "quantifier": "all patterns, shapes, standard deviations, truncations, data types and transform sizes", "why_tests_cant": "statements about every intensity pattern and every window size; tests compare a few patterns with stored means", "anchors": ["src/kikuchipy/pattern/_pattern.py:get_dynamic_background", "src/kikuchipy/pattern/_pattern.py:_dynamic_background_frequency_space_setup", "src/kikuchipy/pattern/chunk.py:get_dynamic_background", "src/kikuchipy/signals/ebsd.py:EBSD.get_dynamic_background", "src/kikuchipy/signals/ebsd.py:EBSD.remove_dynamic_background", "src/kikuchipy/filters/window.py:Window.__new__"]}
{"id": "C83", "title": "Setting files of NORDIF scans are read by their headings and labels", "statement": "From every setting file with the blocks [Microscope], [Detector angles], [Acquisition settings] (or [Calibration settings]) and [Area] and the labels NORDIF writes in them, in any order of blocks and with any other blocks and entries, load() takes the acceleration voltage, magnification, working distance, microscope, scan size, pattern size, step size, sample tilt, azimuthal and, negated, elevation angles written there. Calibration patterns are those named in the file, in its order, with (row, column) indices; area, region of interest and indices are also given in whole steps, rounded to the nearest. A scan without given sizes has the shape in the setting file, and its detector the shape of its patterns. A number that cannot be read always makes reading fail. Refuted: the warning names a line two above the unreadable one; exchanging two entries of a block makes reading fail, as does the text of a heading in a value of a later block; an image resolution of other than two numbers fails while an absent one does not; the detector keeps the shape in the file when another pattern size is given; given sizes do not help if the setting file cannot be read.", "quantifier": "all setting files with any blocks, entries and decimal numbers, all lists of calibration points and all binary files", "why_tests_cant": "statements about every text and every number; tests read one setting file and three damaged copies", "anchors": ["src/kikuchipy/io/plugins/nordif/_api.py:_get_settings_from_file", "src/kikuchipy/io/plugins/nordif/_api.py:_get_string", "src/kikuchipy/io/plugins/nordif/_api.py:_get_calibration_pattern_settings", "src/kikuchipy/io/plugins/nordif/_api.py:file_reader", "src/kikuchipy/io/plugins/nordif_calibration_patterns/_api.py:file_reader"]}
{"id": "C84", "title": "Colour images of virtual backscatter electron images show how regions differ in the map", "statement": "With its defaults, get_rgb_image() gives each channel a brightness by how many standard deviations a value is above the median of its region, limited to the range of the data type, and then stretches all channels together. The image does not change if all intensities of a region are scaled by a positive factor and shifted. All values are whole numbers in the range of the data type; a higher standard score never gives a lower value; without percentiles black and full brightness are both reached; with percentiles, values between these are spread evenly over the range and those outside are black or fully bright. With an alpha channel, points where it is lowest are black. Names, scales and units of the axes are those of the map. Refuted: the brightness offset and contrast factor have no effect when no value leaves the range, since the image is stretched afterwards; a region with the same intensity in all patterns has no defined values, and with percentiles then nothing in the image is defined; a constant alpha channel makes the whole image undefined; the offsets of the map's axes are lost.", "quantifier": "all maps and regions, all alpha channels, brightness offsets, contrast factors and percentiles, both integer data types of colour images", "why_tests_cant": "statements about every image and every pair of images; tests compare a few literals of one small map", "anchors": ["src/kikuchipy/imaging/vbse.py:VirtualBSEImager.get_rgb_image", "src/kikuchipy/imaging/vbse.py:_normalize_image", "src/kikuchipy/imaging/vbse.py:_get_rgb_image", "src/kikuchipy/_utils/_transfer_axes.py:_transfer_navigation_axes_to_signal_axes"]}
{"id": "C85", "title": "Refinement accepts exactly the input it documents, and phases count as the same when they agree in every respect", "statement": "Two phases count as the same if and only if their names, space groups, point groups, numbers of atoms, lattice parameters and atoms (in order: element, coordinates, occupancy) agree, numbers to within 1e-8 plus 1e-5 of the second; a reported difference is a real one. A phase counts as the same as itself if and only if all its occupancies are numbers. A crystal map can be given to a signal if and only if it has the shape of the map; step sizes are compared with the axes of the same name and can only give a warning. A refinement method goes on if and only if detector, masks and crystal map have the right shapes, the crystal map was not cut out of a larger one (when the map has several dimensions or a mask is given), the master pattern can be projected, and the indexed points that are in the data and not masked have one phase, which is that of the master pattern; it refines these points. Refuted: counting as the same is neither symmetric nor transitive; the order of atoms counts, and so does adding a lattice vector to a position; the error for a mask that leaves only points which are not indexed is not the documented ValueError; a crystal map cut out of a larger one is never accepted for patterns in two or more dimensions, although it has the required shape, because it keeps the arrays of the larger one.", "quantifier": "all phases, crystal maps, masks, detectors and master patterns", "why_tests_cant": "statements about every pair of phases and every combination of inputs; tests try a few pairs and one error at a time", "anchors": ["src/kikuchipy/signals/util/_crystal_map.py:_equal_phase", "src/kikuchipy/signals/util/_crystal_map.py:_xmap_is_compatible_with_signal", "src/kikuchipy/signals/util/_detector.py:_detector_is_compatible_with_signal", "src/kikuchipy/signals/ebsd_master_pattern.py:EBSDMasterPattern._is_suitable_for_projection", "src/kikuchipy/signals/ebsd.py:EBSD._check_refinement_parameters", "src/kikuchipy/signals/ebsd.py:EBSD.xmap"]}
{"id": "C86", "title": "Arrays of detector coordinates are converted point by point, for every projection center or for chosen ones", "statement": "For a detector with any navigation shape, conversion of an array of pixel or gnomonic coordinates (points in the last axis) without a position gives, for each projection center and each point, that point converted for that center: of shape navigation shape + array shape, or of the shape of the array if its first axes are the navigation shape followed by at least one axis of points. With a position, given as an integer or integers (which may count from the end), the array is converted for that center and keeps its shape; slices over a two-dimensional map give one converted array per selected center. Converting and converting back gives the points, without a position and at one position. An array is accepted if and only if its last axis has size 2 and the position, if given, matches the navigation dimension and is in range. Refuted: that an array whose first axes happen to have the navigation shape is returned for each position; that one point per position (shape navigation shape + (2,)) is taken as such; that going back with slices restores the shape.", "quantifier": "all detectors, navigation shapes, arrays of coordinates of any number of axes and positions", "why_tests_cant": "shapes of arbitrary rank and every index of the result; tests use a few shapes", "anchors": ["src/kikuchipy/detectors/_convert_detector_coordinates.py:convert_coordinates", "src/kikuchipy/detectors/_convert_detector_coordinates.py:parse_coordinate_format", "src/kikuchipy/detectors/_ebsd_detector.py:EBSDDetector.to_gnomonic_coords", "src/kikuchipy/detectors/_ebsd_detector.py:EBSDDetector.to_pixel_coords", "src/kikuchipy/detectors/_ebsd_detector.py:EBSDDetector._parse_sample_position"]}
{"id": "C87", "title": "Simulated patterns loaded from EMsoft files are at their places, with the simulated geometry, orientations and crystal", "statement": "For every file of EMsoft's EMEBSD program: loading it without a scan size, or with the number of patterns, gives the patterns one after the other; with numbers of rows and columns (ny, nx), pattern i*nx + j is at row i, column j. Axes have the sizes of the data, and names and scales of rows, columns and pixels. A file is accepted if and only if it names that program and the scan size has at most two numbers whose product is the number of patterns. The detector has the shape of the patterns, the simulated tilt, binning and pixel size, and its projection center is where it was simulated. The crystal map has the orientation of each pattern in order, and a phase with one atom for every site, displacements in square angstroms, the space group, and the name of the crystal file. Refuted: that the scan size is (width, height) as documented (it is (height, width), unlike for NORDIF files); that the crystal map has the shape of the signal for rows and columns; that lattice parameters are in angstroms (they stay in nanometres); that a single pattern loaded with an empty tuple has pixel axes.", "quantifier": "all EMsoft files with any number and size of patterns, any crystal, and any scan size", "why_tests_cant": "every pixel of files of every size and every scan size; tests load one file", "anchors": ["src/kikuchipy/io/plugins/emsoft_ebsd/_api.py:file_reader", "src/kikuchipy/io/plugins/emsoft_ebsd/_api.py:_check_file_format", "src/kikuchipy/io/plugins/emsoft_ebsd/_api.py:_crystaldata2phase"]}
{"id": "C88", "title": "A signal keeps its type, geometry and what belongs to it when it is loaded and converted", "statement": "A signal that is loaded gets the class of its type (under each of its documented names), lazy if asked for, and has the detector, crystal map and static background that were read, or a detector of its shape; data that are not real numbers or images are refused. After any number of as_lazy(), compute(), change_dtype() to real types and deepcopy() in any order, the signal is an EBSD signal, lazy if that was last asked for, with the same detector and crystal map, and its patterns and background are converted to the same data types, so that the background can still be removed; master patterns keep phase, hemisphere and projection, also when set_signal_type() makes one kind of master pattern from another. A copy does not change with the signal.", "quantifier": "all data types by name, names of types, attributes, signals, and all finite histories of conversions", "why_tests_cant": "Histories of conversions are unbounded, and each goes through HyperSpy's change of class, which calls __init__ again; tests convert once and look at the class or one attribute. The test for set_signal_type() looks at the attributes of None.", "anchors": ["src/kikuchipy/io/_io.py: _dict2signal, _assign_signal_subclass", "src/kikuchipy/signals/_kikuchipy_signal.py: as_lazy, change_dtype, deepcopy, _assign_subclass, compute, _get_custom_attributes, _set_custom_attributes", "src/kikuchipy/signals/ebsd.py: EBSD.__init__, change_dtype, remove_static_background", "src/kikuchipy/signals/_kikuchi_master_pattern.py: set_signal_type", "src/kikuchipy/hyperspy_extension.yaml"]}
{"id": "C89", "title": "Geometrical simulations are drawn on the right patterns", "statement": "GeometricalKikuchiPatternSimulation.as_markers() gives markers of which HyperSpy shows, when the navigator is at column x and row y of the map, the Kikuchi lines and zone axes of the pattern there, in its pixel coordinates, with the PC of this pattern where the lines have their origin, and with each label at a zone axis in this pattern and naming it. as_collections() gives the lines, zone axes and labels of the pattern asked for, labels 3% of the detector height above their zone axis. plot() draws these with the pattern below so that every point of the pattern is where lines have its coordinates, and with the PC at their origin, and fails for no simulation. Different zone axes have different labels.", "quantifier": "every detector with positive sizes, one PC or one per pattern, every lattice, list of reflectors and list of orientations, every line or map of patterns and every position in it, pixel and gnomonic coordinates, every selection of what is drawn", "why_tests_cant": "Tests look at the number and type of markers and collections for one or two small simulations; that those at each position are of the pattern there, that labels stay aligned with zone axes when some are not in view, and that image, PC and lines agree, are statements about all shapes, positions and simulations.", "anchors": ["src/kikuchipy/simulations/_kikuchi_pattern_simulation.py: GeometricalKikuchiPatternSimulation.as_markers, as_collections, plot, _lines_as_markers, _zone_axes_as_markers, _zone_axes_labels_as_markers, _zone_axes_labels_as_array, _zone_axes_labels_as_list, _pc_as_markers", "src/kikuchipy/draw/_ebsd_detector_plot.py: plot_ebsd_detector", "src/kikuchipy/detectors/_ebsd_detector.py: EBSDDetector.plot"]}
{"id": "C90", "title": "Side and top views show detector and sample where they are", "statement": "EBSDDetector.plot_side_view() and plot_top_view() draw, in microscope coordinates, the sample surface, the PC and the edges of the screen at the places these have according to the detector's PC, pixel size, binning and angles, i.e. where electrons that are seen at these places of the pattern (in the geometry used for simulations and indexing) hit the screen. The axis limits are such that the screen is inside.", "quantifier": "every detector shape, pixel size, binning, PC, tilt, azimuthal angle, twist and sample tilt, one PC or one per pattern of a line or map", "why_tests_cant": "Tests check that figures have some number of artists, for default detectors. That the drawn geometry is the one of the code's own transformation from sample to detector is a statement about all angles and PCs.", "anchors": ["src/kikuchipy/draw/_ebsd_detector_plot.py: plot_detector_sample_geometry_side_view, plot_detector_sample_geometry_top_view, rotate_about_axis, get_axis_limit_pad", "src/kikuchipy/detectors/_ebsd_detector.py: EBSDDetector.plot_side_view, plot_top_view, specimen_scintillator_distance, sample_to_detector"]}
{"id": "C91", "title": "The plot of the detector screen shows pattern, PC and angular distances where they are", "statement": "EBSDDetector.plot() fails only for unknown coordinates or a pattern of another shape. Otherwise, in pixel and in gnomonic coordinates, each point of the screen is drawn where Kikuchi lines have its coordinates, the (average) PC is drawn where it is on the screen, a pixel of the pattern covers the point with its row and column, and pixel coordinates are those of to_pixel_coords(). Gnomonic circles are where directions make the given angles with the direction towards the PC. Zooming out keeps the whole screen in view.", "quantifier": "every detector shape, pixel size, binning and PC, both kinds of coordinates, every zoom, pattern shape and list of angles", "why_tests_cant": "Tests look at axis limits and artists for a few detectors and zooms. That places agree in both kinds of coordinates is a statement about all shapes, PCs and points.", "anchors": ["src/kikuchipy/draw/_ebsd_detector_plot.py: plot_ebsd_detector, get_gnomonic_circles, get_default_gnomonic_angles, update_detector_plane", "src/kikuchipy/detectors/_ebsd_detector.py: EBSDDetector.plot, bounds, _average_gnomonic_bounds", "src/kikuchipy/detectors/_convert_detector_coordinates.py: parse_coordinate_format"]}
{"id": "C92", "title": "The interactive detector plot shows what its sliders and boxes say, and sets just the detector it may", "statement": "In an interactive detector plot, each slider starts at the value of the detector, in a range with that value and the usual range. After whatever moves of sliders and ticks of boxes, the side view, the top view and the screen are those of a detector with the values of the sliders, with the PC, circles and overlays whose boxes are ticked, and overlays for the orientation of the angle sliders, at first the orientation given. Each slider sets its parameter of the detector only, to its last value. Without inplace=True the detector of the caller never changes; with it, assignments to the detector are shown too, and kept. A plotter has at most one overlay of each kind and none without an orientation; a rejected overlay changes nothing. Options given by the caller for bands and zone axes are used and kept.", "quantifier": "every history of creating plotters, adding overlays, showing plots, moving sliders, ticking boxes and assigning to detectors, with any number of detectors, plotters, figures and dictionaries of options", "why_tests_cant": "Tests create one plot and move a few sliders. What figures show and what detectors, plotters and dictionaries are after any order of events, with shared objects, is a statement about all histories.", "anchors": ["src/kikuchipy/draw/_ebsd_detector_plotter.py: EBSDDetectorPlotter, GeometricalSimulationOverlay, MasterPatternOverlay, get_detector_value_range, get_sample_tilt_slider, get_pcx_slider, get_phi1_slider", "src/kikuchipy/detectors/_ebsd_detector.py: EBSDDetector.tilt, EBSDDetector.pc, EBSDDetector.events"]}
{"id": "C93", "title": "Calibrations, crystal maps and files agree on where patterns and pixels are", "statement": "set_scan_calibration makes rows and columns step_y and step_x microns apart and changes nothing else; set_detector_calibration makes pixels delta microns apart with position zero in the middle of the detector, and gives the detector that pixel size. A crystal map from indexing can be assigned to the signal without a warning and has the same distances between points, and it stays so with its contents in every later history of slicing, calibrating, extracting grids and saving and loading. Slices and grids keep the positions of their patterns. Saving and loading keeps shape, steps, positions, units, calibrations and the crystal map, also for line scans.", "quantifier": "every signal with any axes, scales, offsets and units, every history of calibration, indexing, slicing, grid extraction, saving and loading, all indices", "why_tests_cant": "Tests call each method once on one small map. That scales, offsets, step sizes and pixel sizes kept in four places agree after any history of operations is a statement about all histories.", "anchors": ["src/kikuchipy/signals/ebsd.py: EBSD.set_scan_calibration, EBSD.set_detector_calibration, EBSD.xmap, EBSD.extract_grid, _get_navigation_axes_unit", "src/kikuchipy/io/plugins/kikuchipy_h5ebsd/_api.py: KikuchipyH5EBSDWriter.get_xmap_dict, KikuchipyH5EBSDWriter.data_shape_scale, KikuchipyH5EBSDWriter.write, KikuchipyH5EBSDReader.scan2dict", "src/kikuchipy/io/plugins/_h5ebsd.py: H5EBSDReader.get_axes_list", "src/kikuchipy/signals/util/_crystal_map.py: _xmap_is_compatible_with_signal"]}
{"id": "C94", "title": "The detector grid drawn on a pattern shows the tiles of the virtual images", "statement": "VirtualBSEImager.plot_grid draws lines between which lie exactly the pixels that are summed in the virtual image of each tile, with the outer lines on the edges of the pattern, one label per tile that starts inside its tile, and red, green and blue rectangles that outline the pixels of the tiles given as channels. Tiles that are not in the grid are refused in the name of the first channel that has one. Indices mean the same tiles as in roi_from_grid and get_rgb_image.", "quantifier": "every detector size, grid shape, scale and offset of the signal axes, all tiles and lists of channels, every rounding to a nearest pixel", "why_tests_cant": "Tests check the number of markers on one square detector with square tiles and scale 1. Wrong positions show only for oblong tiles, scaled axes, detectors the grid does not divide or negative indices.", "anchors": ["src/kikuchipy/imaging/vbse.py: VirtualBSEImager.plot_grid, VirtualBSEImager._get_rgb_tile_coordinates, VirtualBSEImager._tile_coordinates, VirtualBSEImager._tile_labels, VirtualBSEImager._tile_shape, VirtualBSEImager.roi_from_grid"]}
{"id": "C95", "title": "Plots of projection centers and pattern positions show them where they are", "statement": "EBSDDetector.plot_pc shows, in each panel and mode, one point (or map pixel) for each projection center at the values of the components its axes are labelled with, with its index as number if asked for, and is refused only for single centers, maps without two navigation dimensions and other modes. The plots of fit_pc and estimate_xtilt show all centers, the fitted ones, the outliers and the fitted line. plot_pattern_positions_in_map draws each pattern as far from the corner of the region of interest as it is from its origin, on the corner of its own pixel in images of area and region, and changes no array of the caller. A dictionary of figure arguments can be used for several plots.", "quantifier": "every navigation shape, list of projection centers, mode, orientation, masks of outliers, fits, regions, areas, images of any size and lists of positions", "why_tests_cant": "Tests check that figures are made and count their axes. Exchanged coordinates, flipped images, transposed maps and shared dictionaries show only in the coordinates of all points.", "anchors": ["src/kikuchipy/draw/_projection_center_plot.py: plot_all_projection_centers, plot_all_projection_centers_as_scatter, plot_all_projection_centers_in_map, plot_all_projection_centers_in_3d, plot_projection_center_fit, plot_xtilt_estimate", "src/kikuchipy/draw/_plot_pattern_positions_in_map.py: plot_pattern_positions_in_map", "src/kikuchipy/detectors/_ebsd_detector.py: EBSDDetector.plot_pc, EBSDDetector.fit_pc, EBSDDetector.estimate_xtilt"]}
{"id": "C96", "title": "Dictionaries written to HDF5 files are read back equal, or the writer says what is missing", "statement": "Metadata, crystal maps and headers are written to kikuchipy's HDF5 files as nested dictionaries. A dictionary of texts, numbers, arrays and dictionaries of any depth is read back with the same keys and equal values, texts and shapes of arrays included. What cannot be written is named in a warning or raises an exception; nothing else is lost.", "quantifier": "every dictionary of any depth, every key, every text of Unicode characters, every array shape, and every position of an unwritable value", "why_tests_cant": "Tests write a few dictionaries of short plain texts. Lengths of encoded texts, first axes of length one, the position of an unwritable value and names of keys matter for all values.", "anchors": ["src/kikuchipy/io/plugins/_h5ebsd.py: _dict2hdf5group, _hdf5group2dict", "src/kikuchipy/io/plugins/kikuchipy_h5ebsd/_api.py: KikuchipyH5EBSDWriter.write"]}
{"id": "C97", "title": "Adaptive histogram equalization uses the documented regions and fills the range of the data type", "statement": "adaptive_histogram_equalization of patterns, master patterns and virtual images equalizes each pattern on its own, with contextual regions of a quarter of the height and of the width unless others are asked for, returns one pattern for each in the same data type whose range is filled, keeps the order of equalized intensities, refuses kernel_size of other than two numbers, and warns for floating point data.", "quantifier": "every pattern shape, kernel_size, data type, data, and equalization function", "why_tests_cant": "Tests use square patterns, where exchanged rows and columns do not show, and compare a few intensities.", "anchors": ["src/kikuchipy/signals/_kikuchipy_signal.py: KikuchipySignal2D.adaptive_histogram_equalization", "src/kikuchipy/pattern/_pattern.py: _adaptive_histogram_equalization, rescale_intensity", "src/kikuchipy/signals/ebsd.py: EBSD.adaptive_histogram_equalization", "src/kikuchipy/signals/ebsd_master_pattern.py: EBSDMasterPattern.adaptive_histogram_equalization", "src/kikuchipy/signals/virtual_bse_image.py: VirtualBSEImage.adaptive_histogram_equalization"]}
{"id": "C98", "title": "A colour navigator shows the colours of its image where they are", "statement": "get_rgb_navigator returns an image of the same rows and columns as its colour image, each pixel in its colour (channels from 0 to 1 shown in 256 or 65536 levels), for the data types uint8 and uint16 only. The order of channels is kept over the whole image.", "quantifier": "every colour image of any size, both data types, all channels", "why_tests_cant": "Tests check the data type and the shape of one image.", "anchors": ["src/kikuchipy/draw/_navigators.py: get_rgb_navigator"]}
{"id": "C99", "title": "A moving-screen calibration follows its points, in any order, and its plot shows what it gives", "statement": "Whatever attributes of a PCCalibrationMovingScreen are assigned and in whatever order, its estimates, its average PC and its plot are those of an object made with these attributes. The order in which features are listed does not matter, and patterns given the wrong way round give the same (PCx, PCy) and a negative distance. The plot shows both patterns with their points and the lines between them, and in a third panel the line of each feature, a star where two of these lines meet inside the detector, and the average PC, which is at the mean of the stars in all panels, where EBSDDetector.plot shows it too; keyword arguments reach what they are documented for.", "quantifier": "every calibration with any number of features, every history of assignments and calls of make_lines, every order of the features, all keyword arguments", "why_tests_cant": "Tests read the properties of one object with three features, assign points once followed by make_lines, and check that a figure is returned.", "anchors": ["src/kikuchipy/detectors/_calibration.py: PCCalibrationMovingScreen, make_lines, lines, lines_out_in, pxy_all, pxy, pcz_all, pc_all, pc, plot", "src/kikuchipy/draw/_ebsd_detector_plot.py: plot_moving_screen_calibration, get_default_projection_center_scatter_kwargs"]}
{"id": "C100", "title": "A master pattern on a sphere shows at each point the intensity of that direction", "statement": "plot_spherical shows the stereographic master pattern of the given energy on the unit sphere: the points drawn are the directions of the pixels of both hemispheres, each with the intensity of its pixel, so that a point has the intensity of its direction, and of a simulated master pattern the sum of the intensities of the bands it lies in. Every direction inside the equator of either hemisphere is drawn. A master pattern with one hemisphere is drawn on the whole sphere if the phase is centrosymmetric, with the same intensity in opposite directions. Other master patterns are refused.", "quantifier": "every stereographic master pattern of any size, every intensity as a function of the direction, every set of reflectors, every energy", "why_tests_cant": "Tests check that a plotter with two meshes is returned for one file and that two wrong signals are refused; no intensity is compared to its direction.", "anchors": ["src/kikuchipy/signals/_kikuchi_master_pattern.py: plot_spherical, _get_master_pattern_arrays_from_energy", "src/kikuchipy/simulations/kikuchi_pattern_simulator.py: calculate_master_pattern"]}
{"id": "C101", "title": "A plot of reflectors shows each reflector once, where its plane or band is, with its intensity", "statement": "KikuchiPatternSimulator.plot draws every reflector once, the weakest first, as the line where its plane meets the sphere or as the two edges of its band, the band a simulated master pattern shows, in the chosen colour with an opacity of its intensity relative to the largest: in the stereographic projection, as curves on a sphere, or as one mesh whose lines each have the intensity of their reflector. Without a scaling all are drawn alike. Bragg angles are needed for bands only and structure factors for scaling only. Options which are not documented are refused.", "quantifier": "every list of reflectors, every order in which equal intensities are sorted, all options, with and without an existing figure", "why_tests_cant": "Tests count the artists of one simulator with the default options and check that some errors are raised; no colour, intensity or circle is compared to its reflector.", "anchors": ["src/kikuchipy/simulations/kikuchi_pattern_simulator.py: KikuchiPatternSimulator.plot, _plot_spherical"]}
{"id": "C102", "title": "Windows are objects of their own: only what is done to a window changes it, and it is what its name and flag say", "statement": "A new window has the shape asked for, coefficients of its name (products of those of its axes) and this name; a window made from an array has its coefficients. What is done to other arrays and windows does not change a window, nor does what is done to the window change an array. A window that says it is circular has zeros beyond its larger half width and its other coefficients are kept. shape_compatible tells whether the window fits into data. plot shows each coefficient in its pixel, written as a number with rows and columns labelled by their offset from the origin.", "quantifier": "every history of making windows by name or from arrays, copies, products, slices, reshaping, assignments and make_circular, with any window function; every shape; every window plotted", "why_tests_cant": "Tests make single windows and call single methods. Which objects share memory and which attributes they inherit depends on the history, and a plot is only tested to have some ticks and one colour.", "anchors": ["src/kikuchipy/filters/window.py: Window.__new__, __array_finalize__, is_valid, make_circular, shape_compatible, plot"]}
{"id": "C103", "title": "However patterns are chunked, refinement treats each point with its own pattern, orientations, projection center and bounds", "statement": "The three refinement methods return one row of results per refined point, in order, and the row of a point is what the optimizer finds from the point's own pattern (without masked pixels), its best orientation and the pseudo-symmetric variants of this, its PC and the bounds around these, whatever chunks the patterns come in, are rechunked to, and whatever chunk options are given. Preparing patterns fails only for a chunk size of zero or an unknown option. Score, number of evaluations, orientation, PC and index of the best operator are read from the columns they were written to. Patterns in one chunk are by default rechunked in chunks of 64. Chunk options only affect the call they are given to, are used only if patterns come in a single chunk and rechunking is not declined, and all have an effect.", "quantifier": "every map, mask, detector with one PC or one per point, set of operators, trust region and solver; every chunking of the patterns and every choice of Dask for chunk sizes; all chunk options", "why_tests_cant": "Tests refine a few small maps in one or two chunkings. That blocks of four arrays which are chunked separately always belong together has to hold for all numbers of points and chunk sizes.", "anchors": ["src/kikuchipy/signals/ebsd.py: EBSD._prepare_patterns_for_refinement, refine_orientation, refine_projection_center, refine_orientation_projection_center", "src/kikuchipy/indexing/_refinement/_refinement.py: _RefinementSetup.__init__, bounds_chunks, _refine_orientation, _refine_pc, _refine_orientation_pc, _refine_orientation_chunk_scipy, _refine_orientation_chunk_nlopt, _refine_pc_chunk_scipy, _refine_pc_chunk_nlopt, _refine_orientation_pc_chunk_scipy, _refine_orientation_pc_chunk_nlopt, compute_refine_orientation_results, compute_refine_projection_center_results, compute_refine_orientation_projection_center_results", "src/kikuchipy/indexing/_refinement/_solvers.py: return values"]}
{"id": "C104", "title": "Selecting with single indices, steps, reversed ranges and values in units keeps each pattern with its attributes", "statement": "inav and isig with any mixture of single indices, ranges with steps or in reverse, negative indices and values in the units of an axis return exactly the selected patterns or pixels, in the order of the selection; PCs per pattern, the crystal map and the static background are selected alike, and the detector has the shape of the patterns and gives each remaining pixel its gnomonic coordinates. Selections can follow each other. crop() gives the same as the selection, in place, whether its ends are indices or values. The arguments crop() looks at are those the underlying method sees, however they are given.", "quantifier": "every map and line scan, every selection on every axis, every calibration of the axes, detectors with one PC or one per pattern; every call of crop() which Python accepts", "why_tests_cant": "Tests select a few ranges without steps. Selections on four axes, each with signs, steps and units, and their sequences cannot be listed.", "anchors": ["src/kikuchipy/signals/ebsd.py: EBSD.inav and isig (EBSD._slicer), EBSD.crop, _update_custom_attributes", "src/kikuchipy/signals/util/_overwrite_hyperspy_methods.py: get_parameters", "src/kikuchipy/detectors/_ebsd_detector.py: EBSDDetector.crop"]}
{"id": "C105", "title": "rebin() with any new shape or factors keeps patterns, background, detector and crystal map together", "statement": "rebin() gives the sums of the old pixels (and patterns) weighted with their share in the new ones, whether a new shape or factors are given, and giving a new shape is the same as giving the factors. If the map is left as it is, its points, PCs and crystal map are kept and the static background is rebinned as the patterns are, for single patterns, line scans and maps; if not, background and crystal map are dropped and there is one PC per pattern. The detector has the shape of the patterns, is as large as before, and each place on it keeps its gnomonic coordinates. With a new shape no intensity is lost. The result is the same when written into another signal with out.", "quantifier": "every signal with zero, one or two map axes of any sizes, every new shape and all positive factors, with and without crop, every detector, every conversion to the type of the patterns", "why_tests_cant": "Tests rebin by a few integer factors. Factors are real numbers on up to four axes, and which of them leave sizes unchanged or pixels over cannot be listed.", "anchors": ["src/kikuchipy/signals/ebsd.py: EBSD.rebin", "src/kikuchipy/signals/util/_overwrite_hyperspy_methods.py: get_parameters", "src/kikuchipy/detectors/_ebsd_detector.py: EBSDDetector.shape, binning, height, width, to_gnomonic_coords"]}
{"id": "C106", "title": "A refinement uses the optimiser and options asked for, and prints what it uses", "statement": "refine_orientation(), refine_projection_center() and refine_orientation_projection_center() accept exactly the documented method names, in any case of letters, call the function or algorithm of this name, and pass on the options given to it: keyword arguments of SciPy's functions, with Nelder-Mead as default of minimize(), or tolerance, initial steps and maximum number of evaluations for NLopt. Options of the other library have no effect. The printed message states method, kind, package and options that are used, and all of them, and the trust region as given if and only if bounds are passed on.", "quantifier": "every method name, all dictionaries of keyword arguments, all tolerances, steps and numbers of evaluations, every trust region and starting point, all three kinds of refinement", "why_tests_cant": "Tests look for a few texts in the message for a few methods. Names, dictionaries and trust regions are unbounded, and whether the message is true depends on what is later called.", "anchors": ["src/kikuchipy/indexing/_refinement/_refinement.py: _RefinementSetup.set_optimization_parameters, get_info_message", "src/kikuchipy/indexing/_refinement/__init__.py: SUPPORTED_OPTIMIZATION_METHODS", "src/kikuchipy/indexing/_refinement/_solvers.py", "src/kikuchipy/signals/ebsd.py: EBSD.refine_orientation"]}
{"id": "C107", "title": "merge_crystal_maps() compares points of the same place and leaves them there", "statement": "merge_crystal_maps() accepts maps exactly if they have the same shape, or with masks, if there is one mask per map with as many places left as the map has points and all have one shape, and the same number of rotations per point. It compares at each place of the sample the points that the maps have there, also for maps cut out of larger ones and for masks, and the merged map has the point with the best score at the position it has in the maps.", "quantifier": "any number of maps of one or two dimensions, of any shapes, with any points left out, any scores, step sizes and masks", "why_tests_cant": "Tests merge a few maps of which one is cut and with equal steps. Which points meet depends on which of them are left out in each map, of which there are 2^n choices.", "anchors": ["src/kikuchipy/indexing/_merge_crystal_maps.py: merge_crystal_maps"]}
{"id": "C108", "title": "An orientation similarity map has the shape of the crystal map", "statement": "orientation_similarity_map() returns, for every crystal map of a scan with ranked indices, cut or not, an array with one value for each row and column of the map, and with a last axis for the numbers of indices if several are asked for, where the value in row r and column c is the one of the point there. It refuses exactly n_best greater than the number of indices, and center_index outside of the footprint.", "quantifier": "line scans and maps of any numbers of rows and columns, any points left out, any numbers of indices, any n_best and from_n_best, every footprint of two dimensions and center_index", "why_tests_cant": "Tests look at two small maps. Which axes disappear depends on the sizes, and whether a cut map is accepted on which of its points are left out.", "anchors": ["src/kikuchipy/indexing/_orientation_similarity_map.py: orientation_similarity_map", "src/kikuchipy/indexing/_dictionary_indexing.py: _dictionary_indexing"]}
{"id": "C109", "title": "Dictionary entries and patterns without a score are not reported as matches", "statement": "In dictionary indexing, a dictionary or experimental pattern whose pixels are all equal has no score. Such a dictionary pattern is never reported ahead of one with a score and does not change which others are reported, whatever the batch size, and such an experimental pattern is not reported as matching a dictionary pattern with a score.", "quantifier": "all patterns, all rows of scores of which any may be missing, any keep_n and n_per_iteration, both signs of a metric, every way ties may be broken", "why_tests_cant": "Tests index patterns with contrast only. Where missing values end up depends on the order of two different sorts and on which batch they are in.", "anchors": ["src/kikuchipy/indexing/_dictionary_indexing.py: _dictionary_indexing, _match_chunk", "src/kikuchipy/indexing/similarity_metrics/_normalized_cross_correlation.py: NormalizedCrossCorrelationMetric.match, _zero_mean_normalize_patterns_numpy, _zero_mean_normalize_patterns_dask"]}
{"id": "C110", "title": "Points without scores do not stop the merging of crystal maps", "statement": "merge_crystal_maps() of maps in which scores may be missing takes each point from the first of the maps with the best average of the scores which are not missing, and leaves a point without any score, such as one of a pattern whose pixels are all equal, as not indexed.", "quantifier": "any number of maps (at least two), points and scores per point, any of which may be missing, any number of scores averaged, both signs", "why_tests_cant": "Tests merge maps where every point has its scores. A missing score in a single point among millions decides whether anything is returned.", "anchors": ["src/kikuchipy/indexing/_merge_crystal_maps.py: merge_crystal_maps", "src/kikuchipy/indexing/_dictionary_indexing.py: _dictionary_indexing"]}
{"id": "C111", "title": "Patterns without contrast survive intensity operations", "statement": "rescale_intensity(), normalize_intensity(), remove_static_background() and remove_dynamic_background() return a number for every pixel of every pattern, also of patterns whose pixels are all equal, that are mostly dark or that look like their background.", "quantifier": "any pattern with at least one pixel, any background, both operations, with and without scaling of the background, any percentiles, intensity ranges and data types", "why_tests_cant": "Tests use patterns with contrast. Which patterns are lost depends on all their pixels, and a scan has thousands of patterns of which a few come from holes or shadows.", "anchors": ["src/kikuchipy/pattern/_pattern.py: rescale_intensity, _rescale_with_min_max, _normalize_intensity, _remove_static_background_subtract, _remove_static_background_divide, _remove_dynamic_background, _remove_background_subtract, _remove_background_divide", "src/kikuchipy/signals/_kikuchipy_signal.py: rescale_intensity, normalize_intensity"]}
{"id": "C112", "title": "Patterns with contrast keep it when downsampled", "statement": "EBSD.downsample() accepts every factor above 1 that divides the pattern shape and returns a number for every pixel of every pattern with contrast.", "quantifier": "any pattern shape, factor, data type and patterns", "why_tests_cant": "Tests downsample a few patterns by a few factors. Which patterns are lost depends on all blocks of pixels.", "anchors": ["src/kikuchipy/signals/ebsd.py: EBSD.downsample", "src/kikuchipy/pattern/_pattern.py: _downsample2d, _bin2d, _rescale_with_min_max"]}
{"id": "C113", "title": "Refined points with contrast get a score, the best variant's", "statement": "EBSD.refine_orientation(), refine_projection_center() and refine_orientation_projection_center() give every point a score in [-1, 1], the correlation of its pattern and the one simulated for the refined parameters, and with pseudo-symmetry operators the variant with the highest score is returned.", "quantifier": "any pattern, simulated patterns, optimiser that reports the value at the parameters it returns, start parameters and number of variants", "why_tests_cant": "Tests refine a few patterns with contrast. Patterns without contrast, and simulated patterns without contrast for one variant, are not tried, and the result must not depend on what the optimiser does.", "anchors": ["src/kikuchipy/indexing/_refinement/_solvers.py: _prepare_pattern, _refine_orientation_solver_scipy, _refine_orientation_solver_nlopt", "src/kikuchipy/indexing/_refinement/_objective_functions.py: _refine_orientation_objective_function", "src/kikuchipy/indexing/similarity_metrics/_normalized_cross_correlation.py: _ncc_single_patterns_1d_float32_exp_centered", "src/kikuchipy/indexing/_merge_crystal_maps.py: merge_crystal_maps"]}
{"id": "C114", "title": "Averaged neighbour patterns have intensities", "statement": "EBSD.average_neighbour_patterns() gives every point whose pattern has contrast a pattern with a number in every pixel, however the map is divided into chunks.", "quantifier": "any map, patterns, window, data type and chunks", "why_tests_cant": "Tests average a few patterns with a few windows. Whether the mean of the patterns under the window has contrast depends on all of them.", "anchors": ["src/kikuchipy/signals/ebsd.py: EBSD.average_neighbour_patterns", "src/kikuchipy/pattern/chunk.py: _average_neighbour_patterns, _rescale_neighbour_averaged_patterns", "src/kikuchipy/pattern/_pattern.py: _rescale_with_min_max"]}
{"id": "C115", "title": "A filtered signal has the filtered patterns over the range of the data type", "statement": "EBSD.fft_filter() gives for every pattern the pattern filtered with the transfer function in the frequency domain or the window in the spatial domain, rescaled to the range of the data type, with a number in every pixel, and refuses other domains and lazy_output=True with inplace=True.", "quantifier": "any patterns, shape, data type, transfer function or window, shift and options", "why_tests_cant": "Tests filter a few patterns with a few filters. Whether a pattern keeps intensities depends on all its frequencies and on all values of the filter.", "anchors": ["src/kikuchipy/signals/ebsd.py: EBSD.fft_filter", "src/kikuchipy/pattern/chunk.py: fft_filter", "src/kikuchipy/pattern/_pattern.py: fft_filter, rescale_intensity", "src/kikuchipy/filters/fft_barnes.py: _fft_filter, _fft_filter_setup"]}
{"id": "C116", "title": "Simulated patterns have intensities whatever the detector sees", "statement": "EBSDMasterPattern.get_patterns() returns, for every rotation and detector and for every data type asked for, patterns whose pixels are numbers in the range of the data type, also where the part of the master pattern seen by the detector has no contrast.", "quantifier": "any master pattern, rotations, detector with any number of PCs and pixels, data type, chunk shape and choice of chunks", "why_tests_cant": "Tests simulate patterns from a nickel master pattern on detectors of many pixels, all of which have contrast. Whether a pattern is lost depends on the intensities seen and on two data types, for all rotations and PCs.", "anchors": ["src/kikuchipy/signals/ebsd_master_pattern.py: EBSDMasterPattern.get_patterns", "src/kikuchipy/signals/util/_master_pattern.py: _project_single_pattern_from_master_pattern", "src/kikuchipy/pattern/_pattern.py: _rescale_with_min_max"]}
{"id": "C117", "title": "Titles and file names of scans from h5ebsd files tell scans and files apart", "statement": "A signal loaded from an h5ebsd file (Bruker Nano, EDAX, Oxford Instruments or kikuchipy) has in its metadata the name of its file without directory and extension, and a title made of this name and that of its scan, so that different scans of a file, and scans of different files in a directory, are not given the same.", "quantifier": "any path, any file name with any number of dots, any scan names", "why_tests_cant": "Tests load one scan or two from files with short names and compare the title with a literal. That titles differ is a statement on all pairs of names.", "anchors": ["src/kikuchipy/io/plugins/_h5ebsd.py: H5EBSDReader.get_metadata_filename_title", "src/kikuchipy/io/plugins/kikuchipy_h5ebsd/_api.py: KikuchipyH5EBSDReader.scan2dict", "src/kikuchipy/io/plugins/bruker_h5ebsd/_api.py: BrukerH5EBSDReader.scan2dict"]}
{"id": "C118", "title": "Projection centers read from a kikuchipy h5ebsd file are those stored for the points of the map", "statement": "load() of a kikuchipy h5ebsd file gives a signal whose detector fits its map, with one PC for all points or one for each, and the PC of each point is the one stored for its place; points for which none is stored get (0.5, 0.5, 0.5) and there is a warning whenever PCs and map do not fit.", "quantifier": "any map shape, any number of stored PCs in an array of one or two dimensions, every point", "why_tests_cant": "Tests read files with one PC, with one PC per point and with one padded array. Which PC a point gets depends on four sizes, and for arrays of other shapes it must be right for all of them.", "anchors": ["src/kikuchipy/io/plugins/kikuchipy_h5ebsd/_api.py: KikuchipyH5EBSDReader.scan2dict", "src/kikuchipy/detectors/_ebsd_detector.py: EBSDDetector.pc"]}
{"id": "C119", "title": "Grid tiles of a virtual BSE imager are addressed like the items of an array", "statement": "VirtualBSEImager.roi_from_grid() returns a region exactly for tiles which the grid has; the region of some tiles goes from the first of their rows and columns up to and including the last; indices past the last tile are an error and negative indices count from the last tile.", "quantifier": "any detector and grid shape, any scales, any non-empty or empty list of tiles with any integers as row and column", "why_tests_cant": "Tests use a few tiles inside one grid. Which integers are accepted, and what region they give, must hold for every grid shape and list.", "anchors": ["src/kikuchipy/imaging/vbse.py: VirtualBSEImager.roi_from_grid, grid_rows, grid_cols"]}
{"id": "C120", "title": "Setting one coordinate of the projection centers sets it for the points it is given for", "statement": "Assigning to pcx, pcy or pcz of a detector accepts one number for all PCs or one for each PC, as a list or as an array of the shape of the map; each PC gets its own number and the other two coordinates, and the shape of the PCs, stay.", "quantifier": "any line or map of PCs, any of the three coordinates, any assigned number, list or table, every point", "why_tests_cant": "Tests assign arrays of the shape of the PCs. Which other shapes are accepted, and which point gets which number, must hold for all sizes.", "anchors": ["src/kikuchipy/detectors/_ebsd_detector.py: EBSDDetector.pcx, EBSDDetector.pcy, EBSDDetector.pcz"]}
