# Formal model of kikuchipy in Rocq (Coq 8.16.1)

## Layout

* `properties.jsonl` – the English properties (C01, C02, …).
* `rocq/theories/Model/*.v` – executable models of the Python code, one file per
  area. Every definition carries a comment with the file and lines in `/repo` it
  models and any simplification. No proofs in these files.
* `rocq/theories/Spec/*.v` – small specifications that do not mention the model.
* `rocq/theories/Proofs/*.v` – lemmas.
* `rocq/theories/Props/*.v` – the property theorems only, each closed by `exact`,
  followed by `Print Assumptions`, with `Example`s showing that the hypotheses are
  met by a concrete non-trivial case.
* `MANIFEST.json` – property → theorem names and status.
* `seeded/LOG.jsonl` – wrong-program experiments.

Naming: `Cnn_<name>` for the property theorems. `…_partial`: only part of the
property. `…_refuted`: the full statement is false of the code; the theorem gives a
witness. A property of which some part is refuted has status "partial" in the
manifest, with the positive theorem under the exact side condition next to the
refutation.

## Trusted base

* Coq's kernel (checked again with `coqchk`), and the Coq 8.16.1 standard library.
* Axioms: only those of the standard library's classical reals
  (`ClassicalDedekindReals.sig_forall_dec`, `ClassicalDedekindReals.sig_not_dec`,
  `FunctionalExtensionality.functional_extensionality_dep`) for theorems over `R`,
  and, through lemmas of the Reals library that need it, `Classical_Prop.classic`.
  Theorems over `nat`, `Z`, `Q`, lists and options are closed under the global
  context. `Print Assumptions` under each property theorem shows this in the build
  log; the table at the end of this file lists it.
* Existence of a singular value decomposition and of an estimate (two theorems of C79) also uses
  `ClassicalEpsilon.constructive_indefinite_description`.
* The theorem about floating point grid lines (C45) also lists the primitive machine
  integers and floats of the standard library (`PrimFloat`, `Int63`) and their
  specification axioms (`Coq.Floats.FloatAxioms`, `Coq.Numbers.Cyclic.Int63`).
* The reading of the Python code: the theorems are about the models. NumPy, Dask,
  h5py, orix, HyperSpy, SciPy, Numba are not modelled beyond what is stated per file.
* Floating point: real-number arithmetic (`R` or `Q`) stands in for float32/float64,
  except where rounding is the subject.

## What is modelled, per property, and how it is proved

* **C01** Dictionary indexing returns the true best matches whatever the batch size. Score rows as `nat -> Z/Q` or any ordered type; `_match_chunk` as stable top-k of a slice plus offset; the loop over chunks as a fold over the start/end arrays (cumulative sums, last end clipped up to the dictionary size) starting from the -1/0 placeholders. Invariant: after each chunk the kept list is a sorted top-keep_n of the scores seen so far (plus placeholders). Spec: sorted, distinct, true score, no better entry missed.
* **C02** Dictionary indexing honours a 'smaller is better' similarity metric. Same model with metric sign -1; expected refuted (argtopk keeps the largest); positive theorem for sign +1 in C01.
* **C03** Navigation masks only select map points in dictionary indexing. Compress by mask, per-point function, scatter by mask; prove pointwise equality by induction on the mask list.
* **C04** Orientation similarity map values are bounded, symmetric-set based and consistent across n_best. Neighbour lists with footprint and constant border -1; intersection count on duplicate-free lists; bounds by induction, order independence by Permutation, layers by definition of the loop.
* **C05** Merging crystal maps keeps, at every point, the phase with the best score. Per-point choice by arg-max over optional (masked) scores; phase ids as in the loop with the phase list. Expected findings with masks and repeated phases: refutations; positive theorem without masks.
* **C06** Merged simulation indices from different dictionaries never collide and merged scores are a sorted permutation. Increment computation over integer tables (max/min), induction over the maps; argsort permutation lemma.
* **C07** Similarity scores are bounded by one in absolute value. Real vectors as lists; Cauchy-Schwarz by induction; mask as filter. Scores that are not numbers: division by zero as a missing value.
* **C08** Normalized cross-correlation ignores contrast and brightness. Algebra over real lists.
* **C09** Projection center conventions are inverse conversions. Field arithmetic over R for each convention.
* **C10** Pixel and gnomonic coordinates are inverse maps anchored at the detector edges. Affine maps over R; `field`.
* **C11** Cropping a detector keeps the gnomonic position of every remaining pixel. Record of detector attributes; PC update over R; composition by `field`; attributes by record equality, twist/navigation shape expected refuted.
* **C12** The sample-to-detector transformation is a proper rotation. 3x3 matrices over R built as in the code from Rodrigues rotations; invariant `rows orthonormal, det 1` through the four steps.
* **C13** gnomonic r_max is the largest gnomonic radius on the detector. Corner radii over R; expected refuted with a witness; positive theorem under the condition on which corner is farthest.
* **C14** PC extrapolation reproduces a known plane of projection centers. R model of the extrapolation formulas; index handling for both layouts; documented layout expected refuted.
* **C15** Fitting a plane to extrapolated PCs recovers the tilt that generated them. Slope-to-tilt formula over R with `atan`/`tan`; detector tilt zero proved, otherwise refuted.
* **C16** Detector text files round-trip. Text line model: numbers rounded to 7 decimals in Q/R, navigation shape text parsing; error propagation bound.
* **C17** Grid indices lie inside the map, evenly spaced and centred. nat model of the slicing arithmetic; `nia`/division lemmas; grid shape count characterised exactly, refuted in general.
* **C18** Neighbour dot products do not depend on chunking. 1D and 2D maps as functions on nat; chunk plus overlap plus trim; equality for depth >= window reach; even windows refuted.
* **C19** The average neighbour dot product map equals the mean of the neighbour dot product matrices. Both code paths as lists of neighbour products; equality by definition unfolding and filter lemmas; bound from C07.
* **C20** Averaging neighbour patterns is chunk independent and a proper weighted mean. Weighted sums over windows with zero fill; chunk equality as in C18; normalisation constant; integer truncation of window sums expected refutation.
* **C21** Chunking helpers cover the data exactly. nat model of get_chunking; sums of chunks equal axis length.
* **C22** Downsampling averages disjoint blocks and keeps the detector consistent. Block means over Q/R; heap model with references for detector aliasing; refutation of non-interference for the detector.
* **C23** Intensity rescaling maps exactly onto the output range and keeps order. Rescaling over R/Q; clipping; order preservation.
* **C24** Background removal never leaves the data type range. Same rescaling applied to the corrected pattern; heap model for the caller's array.
* **C25** Slicing and cropping signals keep detector, background and crystal map consistent. Slices with optional/negative bounds resolved as Python does, extent computed as in the code, detector crop from C11; iff-style characterisation of when shapes agree; refutation for open-ended slices.
* **C26** NORDIF binary files round-trip. Byte list model of the file, reshape by index arithmetic, squeeze on shapes; axes naming model.
* **C27** EDAX binary reader places every pattern at its map position with the right step sizes. Header record, offset arithmetic on nat/Z, axes lists.
* **C28** Oxford binary reader returns each pattern at its own map position. List of (file offset, map index) records; argsort; byte strides.
* **C29** kikuchipy h5ebsd files round-trip. Record of the written datasets and the reader applied to it; shapes and PCs.
* **C30** save() never destroys data without permission and adding a scan preserves the others. Decision function over flags and answers; file as map from scan number to scan; histories as lists of calls.
* **C31** Interrupted saves leave the previous data readable. Save as a list of primitive file operations; crash = any prefix.
* **C32** Bruker region-of-interest patterns are placed at their beam positions. Lists of index pairs; counting argument; permutation by argsort; refutation for incomplete rectangles with equal counts.
* **C33** Reading patterns from a directory is independent of the directory listing order. Permutation invariance of the placement function.
* **C34** EMsoft energy selection returns exactly the requested energies. Sorted lists and first/last index of a predicate.
* **C35** Master pattern signal axes are centred. Z floor division.
* **C36** Square Lambert projection and its inverse. R with sqrt, atan, sin, cos; case split on |x| <= |y|.
* **C37** Master pattern interpolation never reads outside the array and never overshoots. R/Z: truncation, bounds of the Lambert coordinates from C36, convex combination.
* **C38** Direction cosines are unit vectors through pixel centres, same for fixed and varying PCs. R vectors, normalisation; list equality between the two loops.
* **C39** Simulated pattern i uses rotation i and projection center i, whatever the chunking. map over zipped lists in chunks equals map; shape check as in the code.
* **C40** Refinement bounds contain the starting point and stay within the trust region. R and Z/int model of the trust region array with in-place update; refutations for integer arrays and repeated calls.
* **C41** Refinement calls do not influence each other. State machine over the class-level dictionaries; induction over call histories.
* **C42** Refinement results are stored at the points they were computed for. Compress/scatter as in C03 over optional entries.
* **C43** Moving-screen calibration recovers the exact projection center. R, `field`, similar triangles.
* **C44** FFT (Barnes) filtering equals direct correlation with edge extension. Circular convolution over index functions mod the padded size, cropped; sums over windows.
* **C45** Virtual BSE grid tiles partition the detector. Grid borders as floors of i*n/g; partition of ranges.
* **C46** Rotations used in simulation are unit quaternions that preserve lengths and compose. R trigonometry; quaternion algebra.
* **C47** Window geometry. Z/R model of window coordinates.
* **C48** Operations with inplace=False do not change the signal and return what inplace=True would produce. Heap with references, operations as functions on heaps.
* **C49** Hough indexing results conversion keeps its inputs. Heap model of a structured array with views.
* **C50** Virtual BSE image methods forward their arguments. Argument passing model; refuted.
* **C51** Loading several scans labels each signal with its own file. Path model, loop as fold; refuted for two or more scans.
* **C52** Decomposition models do not disturb learning results. State model with failure; nat arithmetic and fuel for the loop.
* **C53** Gnomonic pixel scale is the distance of neighbouring pixels. R arithmetic on the detector record; refuted for the code's divisor, exact factor given.
* **C54** Extrapolated PCs lie on the sample plane. Extrapolation formula compared with the plane through the first PC in the frame of the sample-to-detector matrix (C12); `field` and trigonometric identities.
* **C55** Axes of loaded EMsoft master patterns. Axis records (name, size, offset, scale) built as in the reader; energies from C34.
* **C56** Initial steps of refinements. Parameter dictionaries and the order in which they are passed to the optimiser; unit conversions over R.
* **C57** Refined patterns get their own bounds whatever the order of chunks. Shared mutable bounds object in a state machine over interleavings of chunks; refuted for shared state, proved for one worker.
* **C58** The start of a refinement is feasible. Bounds over R/float-free model; membership by cases of optimiser and parameter.
* **C59** Writing a decomposition model to file. File and signal states, failures included; equality with the in-memory model from C52.
* **C60** Refinement scores can be reproduced by simulation. The objective functions over R, composed of C37/C38/C39 models and the NCC of C07; equality of the objective with 1 - Pearson of the pattern from get_patterns(); affine maps do not change it (C08); refutation for master patterns that are rescaled hemisphere by hemisphere.
* **C61** Extracted grids. C17's indices applied to data, PC array and crystal map mask; selection by a product mask is the row-major product (induction over increasing lists).
* **C62** Rebinning. Block sums; gnomonic coordinates kept iff equal factors and no left-over pixels (`field`, evaluation at three points).
* **C63** Histories of signal operations. Inductive type of operations, `history` as a fold, consistency as an invariant; each operation that breaks it has its own refutation.
* **C64** Intensity normalisation. Mean and variance as sums over pixels; normalisation is an affine map, variance scales with its square; the documented standard deviation is refuted.
* **C65** Kikuchi lines. A plane's trace is defined by directions seen at gnomonic coordinates (`Spec/KikuchiBands.v`), independently of matrices multiplied in the code; the chord of the Hesse normal form is the part of the trace inside the circle.
* **C66** Zone axes. Crossings of traces; the cross product of two reciprocal lattice vectors is the volume times the direct lattice vector of the crossed indices.
* **C67** Interactive plot. Equality of the two implementations' lists (lines) and sets of positions (zone axes).
* **C68** Kinematical master pattern. Loops over reflectors and pixels as a list of updates of a memory; specification as a sum over the bands (planes, angle to the plane) of the direction with given stereographic coordinates; proof by sums over permutations and the two halves of a band.
* **C69** Threads. Interleaving semantics with separate reads and writes of shared pixels, any distribution of loop passes; invariants over all schedules for the bounds, a schedule which loses an addition as counterexample.
* **C70** as_lambert. Model with the interpolation of SciPy as a parameter and the stereographic projection of orix as a formula; proof that each Lambert pixel is interpolated at the stereographic coordinates of its direction (from the bijectivity of the Lambert projection, C36).
* **C71** Energy and hemispheres of master patterns. Closest value on an axis, extraction of two hemispheres, suitability; theorems on the energy used and on the intensities found in both hemispheres; a band of a centrosymmetric crystal as counterexample to the use of one hemisphere for both.
* **C72** Vendor h5ebsd files. HDF5 trees, dictionaries made from them, the common reader class and the EDAX and Oxford readers; theorems from the contents of a file (specification: value found at a path) to the array, axes and detector; line scans and default scans as counterexamples.
* **C73** Format detection. The registered readers with extensions, manufacturers and footprints in any order; theorems on which reader is chosen from the extension, the manufacturer and the content.
* **C74** Files of signals. Paths as lists of parts, os.path.splitext and abspath, the loop in load() and the choice of file and writer in save(); theorems for all paths and current directories; files with several scans, other extensions and further dots as counterexamples.
* **C75** Image quality: `Model/PatternSpectrum.v` models the Fourier functions of `pattern/_pattern.py` and the image quality with the
  transforms of `Model/FftBarnes.v`; `Spec/QualitySpec.v` says what the number is with cosine and sine sums. Proved by reordering sums, conjugate
  symmetry of spectra of real arrays and the inversion theorem. Not modelled: float32 rounding.
* **C76** Fourier functions `fft`, `ifft`, `fft_filter`: in `Model/PatternSpectrum.v`, with the shifts as index maps and the half spectra of
  rfft2/irfft2. Proved with the inversion theorem in both directions and conjugate symmetry. Of the keyword arguments only names are modelled.
* **C77** Datasets: `Model/Datasets.v` models class Dataset as a function from a disk and a network to a list of effects, the urls asked for and a
  value; a stop leaves a prefix of the effects, with any content in a file being extracted. pooch is modelled from its documentation, and
  the hash and the members of an archive are parameters. Proved by cases and by following the file through the effects.
* **C78** Frequency windows: `Model/FrequencyWindow.v` models modified_hann, lowpass_fft_filter and highpass_fft_filter over the reals and their use
  in Window. Proved by monotonicity of cos and exp; composed with C76_filter_spectrum after showing that the distance to the origin of the window is
  the periodic distance of a frequency to zero.
* **C79** Plane fits: `Model/PlaneFit.v` models fit_hyperplane, fit_pc_projective, fit_plane_to_pc and their callers over the reals, with the SVD and
  the estimate of a projective transformation as arguments. `Spec/PlaneSpec.v` defines planes, tilts, singular directions and projective maps. Proved
  by uniqueness of the normal of coplanar points, uniqueness of the projective map of a quadrangle (determinants), and symmetry of trimmed means;
  existence of singular directions by compactness.
* **C80** Hough indexing: `Model/Hough.v` models the checks, the phase list for PyEBSDIndex, get_indexer, hough_indexing and
  hough_indexing_optimize_pc around an abstract indexer; `Spec/HoughSpec.v` states what is assumed of the indexer. Proved by induction over phase
  lists and rows of the map, reusing C49.
* **C81** Metric objects over several calls: `Model/MetricState.v` models the attributes `_prepare_metric` changes and the preparation of patterns
  with masks; `Spec/MetricSpec.v` states the documented similarities point by point. Proved by induction over the series of calls.
* **C82** Dynamic background: `Model/DynamicBackground.v` models the Gaussian windows, both filter domains and the pattern and signal methods;
  `Spec/BackgroundSpec.v` defines the Gaussian mean around a pixel. Proved with the convolution theorem of C44 and lemmas on weighted means.
* **C83** NORDIF setting files: `Model/NordifSettings.v` models the search for headings, the regular expressions, int() and float(), the calibration
  patterns and both readers; `Spec/SettingsText.v` defines documents of blocks and entries and what they say. Proved by induction on lists of blocks
  and on texts.
* **C84** Colour images: `Model/RgbImage.v` models normalisation, the alpha channel, percentiles and stretching with NaN as None, and the transfer of
  axes; `Spec/RgbSpec.v` defines the median and standard scores. Proved from affine invariance of sorting, median, standard deviation and percentiles.
* **C85** Input of refinement: `Model/RefinementInput.v` models the comparison of phases, the checks of crystal map, detector, master pattern and
  masks, with kinds of errors; `Spec/PhaseSpec.v` says when phases agree. Proved by cases, with the lemmas of C42 for the points to refine.
* **C86** Arrays of coordinates: `Model/NdArray.v` has arrays of any rank with NumPy's broadcasting, expand_dims and indexing;
  `Model/CoordinateConversion.v` the conversion with and without positions; `Spec/CoordinateSpec.v` says what an index and a selection mean. Proved by
  induction over shapes, with the conversion of one point from C10.
* **C87** EMsoft patterns: `Model/EMsoftEbsd.v` reads the HDF5 tree of `Model/Hdf5.v`; `Spec/EMsoftPatternFile.v` says what a file of a simulation
  contains. One lemma gives the result of the reader for every such file; the theorems follow.
* **C88** Classes as a table (Model/SignalType.v), attributes as a partial function of names, detectors, maps and phases as objects in a store;
  HyperSpy's change of class as a function of type, data type and laziness followed by __init__. One lemma per conversion, then induction over
  histories with a specification in terms of what was asked for (Spec/SignalConversions.v).
* **C89** object arrays with ndindex, labels made from the text of an array; by induction over lists and arrays, and from the coordinates of C65 and
  C66
* **C90** positions of points of the screen from the transformation from sample to detector (Spec/MicroscopeFrame.v); rotation matrices with sine and
  cosine, by ring and field
* **C91** points of the screen in fractions of width and height; angle from the normal by its cosine (Spec/ScreenPlot.v); field and lra
* **C92** worlds of detectors, dictionaries, plotters and figures at addresses, a step for each event; what a figure shows is an invariant
  (Spec/InteractivePlot.v: shows, overlays_before_shows), induction on histories
* **C93** signals as lists of axes, a crystal map by indices and steps, one step for each method, files as records; an invariant (the map has
  consecutive points and the scales as steps) by induction on histories
* **C94** the overlay as lists of coordinates over the reals; a pixel counts in a tile if changing it changes the virtual image (model of C45)
* **C95** figures as records of points, labels, limits and images over the reals; arrays of positions in a store, to see what the caller's arrays
  become
* **C96** values of dictionaries as a tree of texts (code points), numbers, arrays and dictionaries; the encoder, the fixed-size string type and group
  creation of h5py as functions; the reader of Model/Hdf5.v
* **C97** the choice of regions as a function to lists of integers; the equalizer of scikit-image any function; rescaling from Model/Intensity.v; flat results with division by zero as a missing value (C111)
* **C98** images as lists of rows of colours over the reals; scikit-image's rescale_intensity as a function
* **C99** an object as its settings and the lines made last, operations as a state machine, what is read as functions of the state; the plot as the
  points, lines and marks of its panels
* **C100** the points and intensities given to the plotter as a list; the direction of a pixel by stereographic projection, for any number of pixels;
  the simulated master pattern by the theorem of C68
* **C101** the circles, curves or mesh drawn as values, sorting as any permutation that sorts; planes and band edges as in the specification of C68;
  the lines of a mesh decoded as PyVista does
* **C102** a heap of memory blocks and arrays as lists of places in a block, with name and flag per object; owners of elements computed from the
  history alone; invariants on all histories; the plot as image, labels and texts
* **C103** blocks along the navigation axis, from_array with the largest chunk, map_blocks as in Dask; chunk by chunk is proved equal to all at once,
  then row by row; the caller's dictionary is returned as it is after the call
* **C104** items become slices of the data as in HyperSpy and NumPy; the selected positions are characterised by Python's rule for ranges, and
  pattern, PC and crystal map point are proved to come from the same position; refuting selections are given in general form
* **C105** overlaps of intervals on each axis, any number of axes; adjacent intervals add up, so that shares add up to one; equivalences for the
  detector by field arithmetic; results of a call and of a call with out compared
* **C106** names compared letter by letter with the six in the table; keyword arguments as association lists with the lookups of all keys compared;
  each printed line compared with what the optimiser is called with
* **C107** maps with marks for the points they have; rectangles, what is stored at a place and positions in Spec/MapPlaces.v; ranks of points within
  rectangle and whole map compared by induction over rows
* **C108** the layers of C04 put into an array, squeezed; the points of the smallest rectangle counted as in C107
* **C109** scores as optional integers, the two orders (topk: missing first; argsort: missing last) as relations, invariants over the loop of batches;
  refinement to the model of C01 when nothing is missing
* **C110** scores as optional rationals, nanmean and nanargmax; composed with the model of C109
* **C111** pixels as optional reals, division by zero gives none; compared with the operations of Model/Intensity.v
* **C112** binning of C22 with division by zero as a missing value
* **C113** score of C07 with division by zero as a missing value, argmax with missing values, merging of C110
* **C114** averaging of C20 with division by zero as a missing value
* **C115** filters of C44 and C76, rescaling of C111; an image is uniform iff its spectrum is zero but for the zero frequency
* **C116** get_patterns of C39 with division by zero as a missing value; directions characterised as in C38
* **C117** strings as lists of characters; path and group described by how they are put together
* **C118** arrays as lists in reading order; what np.pad does by index; PCs of any type
* **C119** integers as Z, array indexing with negative indices written out, edges over the reals as in Model/VirtualGrid.v
* **C120** PCs and values as sizes with a function of row and column; NumPy's assignment written out; numbers of any type

## Facts about other libraries that the models take as given

* orix: a `CrystalMap` holds arrays over all points and a mask `is_in_data`; `xmap[mask]` changes
  only the mask; `xmap.shape` is the box around the points in the data, in steps of the whole map;
  phases are paired with sorted unique phase ids in order; conversions between Euler angles and
  quaternions are exact.
* HyperSpy: `map()` applies a function to every pattern; slices with integer ends are passed on;
  `rebin()` sums blocks; `get_decomposition_model` is `(factors @ loadings.T).T`; regions of interest
  slice from rounded indices.
* NumPy/SciPy: indexing, reshaping, `argsort` (stable or any order where stated), truncating casts;
  `rfft2`/`irfft2` are the discrete Fourier transform and its inverse; `next_fast_len(n) >= n`;
  `savetxt`/`loadtxt` line layout; Python's printing and reading of floats round-trip (a hypothesis
  of the theorems of C16).
* Dask: `map_overlap`, `map_blocks`, `argtopk`, chunk normalisation as documented; blocks may be computed in any order.
* h5py: groups are listed alphabetically; an interruption is an exception between two writes.
* Optimisers (SciPy, NLopt): any function of objective, start and bounds; where a theorem needs it, it
  has the hypothesis that the reported value is the objective at the reported parameters.

## What is not modelled

* Drawing other than what C84, C89-C95, C98-C101 are about: labels, colours, line widths, sizes of figures, the
  arrows of 3D axes, and whether the system can show a 3D plot (`draw/_vtk.py`).
* `repr`s, progress bars, log levels, and warnings (except where a warning is the only reaction to a wrong argument).
* The network: downloading data sets is an operation which succeeds or fails (C77 models what is kept).
* Robust and affine fits of PCs (scikit-image, SciPy) beyond what C79 states, machine learning internals (C52 and
  C59 model the handling of results), Hough transforms (PyEBSDIndex; C49 and C80 model input and output), optimisers
  (C57, C58, C60 and C103 model what they are given and what becomes of their results).
* Numba and Dask code generation, and floating point rounding except in C45 and in the truncating casts of C20, C22-C24.

## What Print Assumptions lists

The output of `Print Assumptions` for each of the 973 theorems named in MANIFEST.json, grouped by what it lists.
A property without names in brackets has all its theorems in the group.

### Nothing (closed under the global context) (350 theorems)

C01; C02; C03; C04; C05; C06; C09 (names_case_insensitive); C102 (shape_compatible,
shape_compatible_fewer_axes, shape_compatible_one_axis, shape_compatible_more_axes_refuted); C103
(mask_of_other_size, prepared, default_chunks, callers_options_refuted, later_call_refuted, bytes_refuted,
bytes, declined_rechunking_refuted); C104 (arguments, arguments_missing); C106 (accepted_iff, letter_case,
other_options); C107; C108; C109 (all_numbers, outcome_exists, one_pass, unscored_entry_is_best_refuted,
batches_report_numbers, flat_pattern_in_batches_refuted, batch_with_unscored_is_skipped_refuted,
all_matches_lost_refuted, clean_batches_are_searched, batch_size_matters_refuted); C110; C117; C118; C120;
C17; C20 (independent_of_schedule, in_place_all_computed_first); C21; C22 (every_pixel_in_one_block); C26;
C27; C28; C29; C30; C31; C32; C33; C34; C35; C41; C42; C47 (origin_inside, n_neighbours_odd,
n_neighbours_even_refuted); C49; C50; C51; C52; C55; C56 (initial_step_pc, wrong_number_of_steps); C57; C59;
C60 (detector_fits_the_signal); C63 (consistent_signal_accepts_its_attributes,
background_of_other_shape_refuted); C71 (suitable_iff); C72 (accepted_files, requested_scans, requested_order,
default_scan_partial); C73; C74; C76 (options_with_shift_refuted); C77; C79 (two_pcs_refuted); C80
(phases_of_an_indexer, own_phase_list_is_accepted, indexer_needs_space_groups, accepted_phases,
indexer_has_the_geometry, indexer_of_detector_fits, accepted_indexer, results_at_their_points,
phases_at_their_points_partial); C81; C83; C84 (axes); C85; C86 (selection, formats); C88
(class_of_loaded_signals); C89 (labels_tell_zone_axes_apart, labels_of_large_indices_refuted); C93; C97
(warnings); C99 (latest_values).

### `ClassicalDedekindReals.sig_forall_dec`, `FunctionalExtensionality.functional_extensionality_dep` (258 theorems)

C07 (constant_pattern_has_no_score); C09 (to_bruker_keeps_position, conventions_inverse,
detector_reports_given_pcs, between_conventions, documented_names_accepted); C10; C100 (points_drawn,
refused_iff, intensities_of_directions, corners_in_the_other_half, zeros_above_refuted,
one_hemisphere_partial); C102 (plot, plot_refused_iff, plot_without_values); C104 (crop_map_patterns, inav,
inav_crystal_map_partial, inav_step_crystal_map_refuted, inav_reversed_crystal_map_refuted, isig,
isig_detector_partial, isig_step_refuted, isig_reversed_refuted, isig_bounded_step_refuted,
isig_then_inav_refuted, isig_line_scan_refuted, crop_map, crop_rows, crop_columns,
crop_detector_values_refuted, crop_map_values_refuted, crop_map_values_one_pc_refuted); C105; C11; C111
(rescale_iff, rescale_range_iff, percentiles_iff, mostly_dark_pattern_refuted, relative_iff, subtract_iff,
divide_iff, divide_by_scaled_background_refuted, pattern_is_background_refuted, dynamic_flat_refuted,
dynamic_subtract_iff, scaled_subtract_iff, static_divide_iff, static_subtract_iff); C112; C114; C119; C15
(affine_fit_exact); C16; C20 (weighted_mean_for_all_chunks, weight_sum_at_least_one, independent_of_chunks,
scaling_the_window, succeeds, small_weights_refuted, one_dimensional_window_refuted,
in_place_schedule_refuted, one_pixel_window_does_nothing); C22 (blocks_replaced_by_their_mean,
range_of_data_type, detector_follows, fractional_binning_refuted, downsample_in_place,
downsample_copy_partial, downsample_copy_keeps_detector_refuted, invalid_factor_refused); C23; C24; C25; C45
(tiles_partition_the_detector, rgb_channel, images_sum_to_the_pattern, tile_borders, region_of_several_tiles,
offset_axis_refuted); C46 (rotation_preserves, rotations_compose, conjugate_undoes); C48; C53; C60
(one_hemisphere_for_both); C61; C62; C63 (history_keeps_signal_consistent_partial, isig_with_one_pc_refuted);
C65 (pixel_coordinates_error, pc_marker); C68 (direction_unique); C71 (closest_energy,
highest_energy_by_default, only_energy); C72 (edax_maps, incomplete_files); C80 (equal_lattices_refuted,
phases_at_their_points_refuted); C82 (conversion_wraps); C84 (offset_refuted); C86
(same_points_for_every_position, single_point, points_of_each_position, chosen_positions, one_position,
accepted, round_trip, round_trip_of_each_position, round_trip_at_one_position, leading_axes_refuted,
one_point_each_refuted, round_trip_with_slices_refuted); C88 (default_detector, only_images, loaded_patterns,
pattern_conversions, background_stays_usable, background_after_rescaling_refuted,
setting_the_same_type_refuted, other_name_of_lazy_signal_refuted, complex_numbers, deep_copies_are_separate,
lazy_copy_is_separate_refuted, simulation_conversions, unknown_simulation_type_refuted, simulation_made_other,
one_name_kept); C89 (pattern_below_its_lines); C92 (slider_starts_at_value, slider_keeps_range); C94; C95; C96
(dictionary_round_trip, text_back_iff, text_back_refuted, array_back_iff, silent_write_is_complete,
unwritable_value_drops_the_rest, only_warned_keys_are_lost_refuted, slash_in_key_refuted, slash_below_a_value,
values_that_raise, mixed_numbers_refuted); C97 (default_regions_iff, default_regions_refuted,
default_regions_of_small_patterns_refuted, requested_regions, result_spans_data_type, each_pattern_on_its_own,
flat_pattern_refuted, equalized_iff); C98; C99 (plot_marks, zorder_of_pc_refuted).

### `ClassicalDedekindReals.sig_forall_dec`, `ClassicalDedekindReals.sig_not_dec`, `FunctionalExtensionality.functional_extensionality_dep` (245 theorems)

C07 (scores_are_the_documented_coefficients, scores_shape, ncc_bounded, ndp_bounded,
ndp_of_nonnegative_patterns, all_scores_bounded, objective_is_one_minus_pearson_and_bounded,
uniform_patterns_match, score_iff); C08; C100 (one_hemisphere_refuted); C101; C102 (only_relatives_change,
make_circular, window_of_array_changes_it_refuted, new_window_one_axis, new_window_two_axes,
new_circular_window, circular_with_one_axis_refuted, three_axes_refuted, small_shapes_refused,
shape_of_custom_window_refuted, window_of_array, derived_windows, circular_windows_are_discs,
part_of_circular_window_refuted); C103 (each_point_with_its_own, as_one_by_one); C106 (given_twice_iff, scipy,
nlopt, given_twice, reported, all_reported, trust_region_printed_iff, trust_region_as_given_partial,
trust_region_array_refuted, bounds_without_trust_region_refuted); C109 (which_scores_are_missing); C111
(normalize_iff); C113; C115; C12; C13; C14; C18; C19; C36 (inverse_on_upper_unit_hemisphere); C38
(unit_vectors_through_pixel_centres, direction_unique); C40; C43; C44; C46 (euler_unit_quaternion,
euler_is_bunge); C47 (circular_window_is_a_disc, circular_keeps_origin, circular_symmetric_odd,
circular_keeps_axes, circular_exists, circular_single_row_refuted); C54; C56
(initial_step_in_degrees_refuted); C58; C64; C70 (rest_kept, lazy_refused); C72 (oxford_maps, oxford_binning,
oxford_lines_refuted, default_scan_refuted, oxford_binning_rounded); C75; C76 (round_trip,
real_round_trip_even_width, real_round_trip_odd_width_refuted, zero_frequency, options, filter_spectrum,
spectrum_determines, filter_all_pass, filter_zero_frequency_only, filter_linear); C78 (modified_hann_range,
modified_hann_symmetric, modified_hann_increases, modified_hann_maximum_odd,
modified_hann_maximum_even_refuted, lowpass_value, highpass_value, highpass_is_mirrored,
window_filters_frequencies, window_of_one_row_refuted, lowpass_keeps_the_mean, highpass_removes_the_mean,
default_highpass_keeps_a_part, zero_cutoff_refuted); C82 (frequency_background, no_window,
background_within_pattern, background_fits_data_type, contrast_and_brightness, constant_pattern,
removal_ignores_contrast_and_brightness, mirrored_columns, mirrored_rows, background_half_a_pixel_off_refuted,
cut_off_at_half_the_distance_refuted, reach_in_the_spatial_domain, got_background_is_removed,
default_standard_deviation_refuted, converted_too_early_refuted, whole_patterns_in_chunks,
detector_in_several_chunks_refuted); C84 (normalized_channel, contrast_of_regions,
brightness_and_contrast_ignored_refuted, range, order, full_range, percentiles, constant_channel_refuted,
constant_channel_percentiles_refuted, black_where_alpha_is_lowest, constant_alpha_refuted); C87; C90; C91; C99
(as_created_after_make_lines, as_created_without_new_points, same_place_in_first_pattern_refuted,
same_distance_apart, pattern_coordinates_current, points_assigned_alone_refuted, other_number_of_points_fails,
estimates_of_created, any_order_of_features, patterns_exchanged, plot_shows, plot_drawn_iff,
lines_join_points, half_a_pixel_refuted).

### `ClassicalDedekindReals.sig_forall_dec`, `ClassicalDedekindReals.sig_not_dec`, `Classical_Prop.classic`, `FunctionalExtensionality.functional_extensionality_dep` (112 theorems)

C100 (simulated_master_pattern); C116; C15 (x_tilt_of_extrapolated_pcs, fit_recovers_sample_tilt_partial,
fit_with_detector_tilt_refuted); C36 (project_inverse, inverse_project, projection_inside_square,
projection_of_direction, hemispheres_alike, one_to_one); C37; C38 (fixed_and_varying_pc_agree); C39; C46
(rodrigues, rodrigues_identity_refuted); C60 (orientation_score_partial, pc_score_partial,
orientation_pc_score_partial, simulated_pattern_exists, differently_bright_hemispheres_refuted,
single_pattern_of_2d_signal_refuted); C65 (refused_shapes, lines_are_traces, facing_traces_are_drawn,
traces_are_drawn_partial, traces_on_the_detector_are_drawn_partial, pixel_coordinates, markers,
trace_through_pc_refuted, trace_in_corner_refuted); C66; C67; C68 (each_band_once,
single_reflectors_give_half_bands, crystal_symmetry, lower_is_upper_turned, refused, axes,
axes_of_capitals_refuted, origin_of_axes_refuted); C69; C70 (pixels_show_their_directions,
intensities_of_directions_kept); C71 (both_hemispheres, one_hemisphere_partial, one_hemisphere_refuted); C78
(lowpass_decreases, window_exists); C79 (tilts_of_a_plane_partial, tilts_of_inliers, mask_as_a_list_refuted,
ten_pcs_refuted, estimates_agree_partial, estimates_agree_refuted, projective_fit_is_exact_partial,
outliers_are_left_out, extrapolated_pcs_are_fitted, one_pc_is_refused); C89 (lines_at_each_position,
zone_axes_at_each_position, only_visible_lines_in_maps, labels_at_zone_axes, pc_at_each_position, collections,
plot_fails_iff, plot_with_several_pcs_refuted, plot_without_zone_axes_refuted); C92
(geometrical_simulation_accepted, master_pattern_accepted, one_overlay_of_each_kind,
figures_show_their_controls, controls_do_not_fail, given_orientation_shown_first, screen_kept,
detector_left_alone, inplace_averages_pc, sliders_set_their_parameters, options_kept,
assignments_shown_refuted, assignment_sets_one_parameter, assignments_kept_refuted, two_figures_agree_refuted,
late_overlay_refuted, marker_size_refuted).

### `ClassicalDedekindReals.sig_forall_dec` (5 theorems)

C103 (columns, no_operators_refuted); C80 (optimized_pcs, optimized_detector_loses_pixels_refuted); C96
(integers_among_floats).

### `PrimFloat.add`, `PrimFloat.div`, `PrimFloat.float`, `PrimFloat.mul`, `PrimFloat.of_uint63`, `PrimInt63.int`, `PrimInt63.lor`, `PrimInt63.lsl`, `PrimInt63.sub` (1 theorems)

C45 (tiles_in_double_precision_refuted).

### `ClassicalDedekindReals.sig_forall_dec`, `ClassicalDedekindReals.sig_not_dec`, `ClassicalEpsilon.constructive_indefinite_description`, `Classical_Prop.classic`, `FunctionalExtensionality.functional_extensionality_dep` (1 theorems)

C79 (svd_exists).

### `ClassicalDedekindReals.sig_forall_dec`, `ClassicalEpsilon.constructive_indefinite_description`, `Classical_Prop.classic` (1 theorems)

C79 (estimate_exists).
