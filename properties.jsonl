{"id": "C01", "title": "Task distribution is an exact, even, contiguous partition", "statement": "distribute_tasks(n, w) with w>=1 returns [start,stop) ranges that are contiguous from 0 to n, non-empty, at most w many, cover each task index exactly once, and whose sizes differ by at most one; w=0 raises ZeroDivisionError.", "quantifier": "every number of tasks n>=0 and every worker count w", "why_tests_cant": "a test samples (n,w) pairs; the partition must be exact for every pair or frames are silently lost or written twice", "anchors": ["hexrd/core/utils/concurrent.py:distribute_tasks"]}
{"id": "C02", "title": "parallelise_function returns results in input order for every schedule", "statement": "Whatever interleaving of producer, consumer and worker processes happens, if parallelise_function returns, then result i is func(var[i]) (with the keyword arguments) for every i; results never depend on worker count or timing.", "quantifier": "every list of inputs, every number of processes, every schedule of queue operations", "why_tests_cant": "schedules are unbounded and nondeterministic", "anchors": ["hexrd/core/utils/multiprocess_generic.py:GenericMultiprocessing.parallelise_function", "hexrd/core/utils/multiprocess_generic.py:GenericMultiprocessing._func_queue"]}
{"id": "C03", "title": "Memoised functions return what the function would return, with an LRU-bounded cache", "statement": "For every history of calls and cache resizes, a call to a memoize-wrapped deterministic function returns the value of the function on the arguments that first produced the same cache key; the cache never exceeds maxsize entries, holds at most one value per key, and evicts the least recently used key first. Exceptions are not cached.", "quantifier": "every sequence of calls / set_cache_maxsize operations and every maxsize", "why_tests_cant": "cache bugs depend on call history", "anchors": ["hexrd/core/utils/decorators.py:memoize", "hexrd/core/utils/decorators.py:_make_hashable"]}
{"id": "C04", "title": "Memoise keys separate different argument lists", "statement": "Two calls with arguments of different meaning (different array contents/shape/dtype, list vs tuple vs dict, positional vs keyword) must not share a cache entry.", "quantifier": "every pair of argument lists", "why_tests_cant": "collisions lie in unsampled pairs", "anchors": ["hexrd/core/utils/decorators.py:_make_hashable", "hexrd/core/utils/decorators.py:memoize"]}
{"id": "C05", "title": "Chunk stops end at the last item and are strictly increasing", "statement": "For 1<=k<=n the chunk boundaries used by the *_iter statistics number exactly k, are strictly increasing, start >=0, end at n-1, and chunk sizes differ by at most one; k>n raises ValueError.", "quantifier": "every n and k", "why_tests_cant": "boundary arithmetic for every pair", "anchors": ["hexrd/core/imageseries/stats.py:_chunk_stops"]}
{"id": "C06", "title": "Chunked statistics equal their one-shot versions", "statement": "For each of max, min, sum, average the *_iter generator with k chunks yields exactly k images and its last image equals the one-shot function on the same frames; for percentile/median the last yielded image equals the one-shot result for every row chunking, with or without the frame buffer of any size.", "quantifier": "every non-empty frame sequence, every frame limit, every 1<=k<=n", "why_tests_cant": "must hold for all chunkings of all sequences", "anchors": ["hexrd/core/imageseries/stats.py:max_iter", "hexrd/core/imageseries/stats.py:min_iter", "hexrd/core/imageseries/stats.py:sum_iter", "hexrd/core/imageseries/stats.py:average_iter", "hexrd/core/imageseries/stats.py:percentile_iter", "hexrd/core/imageseries/stats.py:_toarray"]}
{"id": "C07", "title": "Images yielded by chunked statistics are stable", "statement": "An image handed to the consumer by a statistics iterator is not changed by later iterations of the same iterator.", "quantifier": "every frame sequence and chunk count, every point in the iteration", "why_tests_cant": "an aliasing fault shows only for particular chunkings and only if the consumer keeps the image", "anchors": ["hexrd/core/imageseries/stats.py:sum_iter", "hexrd/core/imageseries/stats.py:average_iter"]}
{"id": "C08", "title": "Omega wedges partition the frames", "statement": "For valid omega metadata the wedges cover every frame exactly once, are contiguous, have uniform step within tolerance and are increasing; the wedge number and frame index of omega arrays are consistent; metadata that is not increasing is rejected.", "quantifier": "every omega array", "why_tests_cant": "every metadata array", "anchors": ["hexrd/core/imageseries/omega.py:OmegaImageSeries._make_wedges"]}
{"id": "C09", "title": "omega_to_frame finds the frame that contains the angle", "statement": "For a series with omega metadata, omega_to_frame(w) returns (frame, wedge) such that w is congruent mod 360 to an angle inside that wedge and inside that frame's [min,max) interval, the frame being a member of the wedge; it returns (-1,-1) exactly when no wedge contains the angle modulo 360.", "quantifier": "every omega metadata with uniform wedges and every real angle", "why_tests_cant": "angles and wedge configurations are unbounded; wrap-around cases", "anchors": ["hexrd/core/imageseries/omega.py:OmegaImageSeries.omega_to_frame"]}
{"id": "C10", "title": "omegarange_to_frames returns exactly the frames meeting the range", "statement": "For a range inside one wedge, omegarange_to_frames returns the consecutive frames from the one containing the lower end to the one containing the upper end (inclusive); with a full-circle wedge it wraps. In particular a range inside a single frame returns that frame.", "quantifier": "every wedge and every angle pair", "why_tests_cant": "boundary behaviour for all ranges", "anchors": ["hexrd/core/imageseries/omega.py:OmegaImageSeries.omegarange_to_frames"]}
{"id": "C100", "title": "Angle ranges select exactly the angles in them", "statement": "paintGrid takes any list of omega or eta ranges that do not overlap, in any order and at any turn, and counts a predicted spot only if its angle, up to full turns, lies in one of the ranges.", "quantifier": "every list of ranges, every start of the period, every angle", "why_tests_cant": "the ranges are wrapped, sorted and searched; every combination of wrapping matters", "anchors": ["hexrd/hedm/indexer.py:_normalize_ranges", "hexrd/hedm/indexer.py:_find_in_range", "hexrd/hedm/indexer.py:_map_angle"]}
{"id": "C101", "title": "Each predicted spot is looked up in the right pixel", "statement": "A predicted spot counts if its angles lie in the ranges and in the maps; it is looked up in the column and row whose edges enclose its angles (up to full turns), enlarged by the tolerances rounded to whole pixels; in all other cases it is ignored.", "quantifier": "every orientation, reflection, map size, edges, ranges and tolerances", "why_tests_cant": "every angle, in particular on edges and across full turns", "anchors": ["hexrd/hedm/indexer.py:_angle_is_hit", "hexrd/hedm/indexer.py:paintgrid_init", "hexrd/hedm/indexer.py:paintGridThis"]}
{"id": "C102", "title": "A spot is hit if a pixel within the tolerance is bright", "statement": "A predicted spot is a hit exactly if some pixel within the tolerances is above the threshold; NaN pixels make it uncounted.", "quantifier": "every map, position, tolerance and threshold", "why_tests_cant": "all positions near borders, all placements of NaN", "anchors": ["hexrd/hedm/indexer.py:_check_dilated"]}
{"id": "C103", "title": "The score of an orientation is the fraction of counted spots that are hit", "statement": "paintGrid's score of an orientation is the number of hits divided by the number of counted predictions over all symmetric reflections, each compared with the map and threshold of its own family; it is between 0 and 1, and 0 if nothing is counted; raising the threshold never raises it.", "quantifier": "every orientation, list of families, maps and thresholds", "why_tests_cant": "all numbers and sizes of families", "anchors": ["hexrd/hedm/indexer.py:_filter_and_count_hits", "hexrd/hedm/indexer.py:paintGridThis", "hexrd/hedm/indexer.py:paintGrid"]}
{"id": "C104", "title": "Many processes give the scores that one gives", "statement": "With several processes paintGrid returns the same list of scores as with one, whichever process finishes first.", "quantifier": "every number of orientations and processes, every order of completion", "why_tests_cant": "all schedules", "anchors": ["hexrd/hedm/indexer.py:paintGrid"]}
{"id": "C105", "title": "The elastic constants asked for are those the symmetry leaves free", "statement": "For each Laue group MakeStiffnessMatrix turns the list of independent constants into a symmetric 6x6 matrix for which no rotation of that group changes the elastic energy of any strain; every matrix with that symmetry is obtained, from exactly one list, the one Required_C reads off it.", "quantifier": "every Laue group, list of constants, matrix and strain", "why_tests_cant": "linear identities over all constants and strains for all 82 rotations; the converse quantifies over all matrices", "anchors": ["hexrd/core/material/unitcell.py:unitcell.MakeStiffnessMatrix", "hexrd/core/material/unitcell.py:unitcell.Required_C", "hexrd/core/material/unitcell.py:_StiffnessDict"]}
{"id": "C106", "title": "Stored elastic constants are the ones entered", "statement": "After MakeStiffnessMatrix the stiffness holds the constants entered; a compliance assigned is the one read back and is the inverse of the stiffness in the stated units; a refused list changes nothing.", "quantifier": "every list of constants and matrix", "why_tests_cant": "all matrices; exceptions in the middle of the update", "anchors": ["hexrd/core/material/unitcell.py:unitcell.MakeStiffnessMatrix", "hexrd/core/material/unitcell.py:unitcell.compliance"]}
{"id": "C107", "title": "Pressure and volume of a material obey one equation of state", "statement": "calc_pressure is the third order Birch-Murnaghan pressure with the bulk modulus and derivative of the given temperature, zero with slope -k/v at the reference volume; calc_volume returns the largest volume not above the reference one that has the pressure asked for, and the two functions are inverse to each other.", "quantifier": "every equation of state, pressure, volume and temperature", "why_tests_cant": "real-valued inputs, existence and uniqueness of roots of a polynomial of degree nine", "anchors": ["hexrd/core/material/material.py:Material.calc_pressure", "hexrd/core/material/material.py:Material.calc_volume", "hexrd/core/material/material.py:Material.vt", "hexrd/core/material/material.py:Material.kt", "hexrd/core/material/material.py:Material.ktp"]}
{"id": "C108", "title": "The cell at a pressure and temperature has the volume of the equation of state", "statement": "calc_lp_at_PT keeps the angles and the ratios of the lengths, gives a cell whose volume is the one calc_volume returns, and does not depend on how compressed the present cell is.", "quantifier": "every cell, equation of state, pressure and temperature", "why_tests_cant": "real-valued inputs; all shapes of cells", "anchors": ["hexrd/core/material/material.py:Material.calc_lp_at_PT", "hexrd/core/material/material.py:Material.calc_lp_factor", "hexrd/core/material/material.py:Material.lparms0", "hexrd/core/material/material.py:Material.pt_lp_factor"]}
{"id": "C109", "title": "A material, its unit cell and its plane data never disagree", "statement": "After any sequence of assignments to a Material the unit cell has its lattice parameters (in the form its space group requires), space group, setting, atoms, dmin and beam energy, and the plane data lists exactly the reflections of that cell at their two-thetas for that beam energy.", "quantifier": "every material and every sequence of assignments, also after failed ones", "why_tests_cant": "all histories of the object, including exceptions in the middle of an update", "anchors": ["hexrd/core/material/material.py:Material._newUnitcell", "hexrd/core/material/material.py:Material._newPdata", "hexrd/core/material/material.py:Material.sgnum", "hexrd/core/material/material.py:Material.latticeParameters", "hexrd/core/material/material.py:Material.dmin", "hexrd/core/material/material.py:Material.beamEnergy", "hexrd/core/material/material.py:Material._set_atomdata", "hexrd/core/material/crystallography.py:PlaneData.set_laue_and_lparms"]}
{"id": "C11", "title": "OmegaWedges generates one omega interval per frame", "statement": "After any sequence of addwedge/delwedge operations, omegas has exactly nframes rows when the wedge frame counts add up (else an error is raised), consecutive frames in a wedge share endpoints, and each wedge spans exactly [ostart, ostop].", "quantifier": "every operation sequence on wedges", "why_tests_cant": "histories of edits are unbounded", "anchors": ["hexrd/core/imageseries/omega.py:OmegaWedges.omegas", "hexrd/core/imageseries/omega.py:OmegaWedges.addwedge", "hexrd/core/imageseries/omega.py:OmegaWedges.delwedge"]}
{"id": "C110", "title": "Exclusions follow the reflections when the list changes", "statement": "When an assignment to a Material changes the list of reflections, every reflection listed before stays excluded or not as it was, wherever it is listed now, and the new ones are excluded; if this left none, all but those of the file or the first five are excluded, as in a new material.", "quantifier": "every material, history, pair of lists and mask", "why_tests_cant": "all pairs of lists, orders and histories", "anchors": ["hexrd/core/material/material.py:Material._newPdata", "hexrd/core/material/material.py:Material.set_default_exclusions", "hexrd/core/material/material.py:hkls_match", "hexrd/core/material/material.py:map_hkls_to_new"]}
{"id": "C111", "title": "Structure factors read are those of the present material", "statement": "The structure factors read from the plane data of a Material are those of its present unit cell, one for each reflection that is not excluded, in the present order, whatever was read and assigned before.", "quantifier": "every material and every sequence of assignments and reads", "why_tests_cant": "cached values: all interleavings of reads and assignments", "anchors": ["hexrd/core/material/crystallography.py:PlaneData.structFact", "hexrd/core/material/crystallography.py:PlaneData.invalidate_structure_factor", "hexrd/core/material/material.py:Material.invalidate_structure_factor"]}
{"id": "C112", "title": "The symmetric reflections of plane data are the family of planes", "statement": "makePlaneData gives one entry per reflection, in the order given, and lists as its symmetric reflections exactly once each the planes that a rotation of the Laue group makes of it, and the opposite ones; the normals are theirs, all planes of a family have the spacing and two-theta of the entry, two reflections get the same list if they are symmetric and lists without a common plane otherwise; the multiplicity divides the order of the Laue group, and an entry is marked centrosymmetric exactly if a rotation turns it into its opposite.", "quantifier": "every Laue group, lattice, reflection and list", "why_tests_cant": "rounding and comparison of rotated real vectors must be right for every lattice and every hkl", "anchors": ["hexrd/core/material/crystallography.py:PlaneData.makePlaneData", "hexrd/core/rotations.py:applySym", "hexrd/core/matrixutil.py:findDuplicateVectors", "hexrd/core/rotations.py:quatOfLaueGroup", "hexrd/core/rotations.py:ltypeOfLaueGroup"]}
{"id": "C113", "title": "Plane data built for a space group has every reflection of the crystal once", "statement": "The symmetric reflections of plane data built with the Laue group of a space group are the ones equivalent under the operations of the space group; those of all the reflections of a unit cell together are all the reflections the crystal can show, each once.", "quantifier": "every space group, setting, cell, dmin and reflection", "why_tests_cant": "infinitely many reflections and two independent descriptions of the symmetry, by quaternions and by integer matrices", "anchors": ["hexrd/core/material/crystallography.py:PlaneData.makePlaneData", "hexrd/core/material/unitcell.py:unitcell.getHKLs", "hexrd/core/material/unitcell.py:unitcell.GetPgLg"]}
{"id": "C114", "title": "The number of an hkl is that of its reflection", "statement": "getHKLID of an hkl is the place of the reflection it is symmetric to among those shown, or with master=True its id; RuntimeError if none is.", "quantifier": "every plane data object a caller can reach and every hkl", "why_tests_cant": "all histories of exclusions and orders", "anchors": ["hexrd/core/material/crystallography.py:PlaneData.getHKLID", "hexrd/core/material/crystallography.py:PlaneData.getSymHKLs"]}
{"id": "C115", "title": "getFriedelPair gives the smallest rotation to the Friedel pair", "statement": "For each reflection getFriedelPair returns the rotation angle and azimuth at which the opposite planes reflect, after the smallest rotation from the reference angle, in the chosen convention and for any inclination of the rotation axis; one value may be given for several reflections; NaN if there is none.", "quantifier": "every Bragg angle, azimuth, reference angle, inclination and convention", "why_tests_cant": "a statement about all rotations; trigonometric equation over the reals", "anchors": ["hexrd/core/material/crystallography.py:getFriedelPair"]}
{"id": "C116", "title": "Orientations on a fiber turn the crystal direction into the sample direction", "statement": "discreteFiber returns ndiv unit quaternions in even steps about the crystal direction, each turning that direction (with a symmetry: an equivalent one) into the sample direction; every orientation that does so is within 180/ndiv degrees of one returned; for a spot, each orientation brings an equivalent plane into position to send the beam to the spot.", "quantifier": "every pair of directions, B matrix, number of divisions, crystal symmetry and spot", "why_tests_cant": "a geometric statement about all directions and all orientations", "anchors": ["hexrd/core/rotations.py:discreteFiber", "hexrd/hedm/findorientations.py:discretefiber_reduced", "hexrd/core/matrixutil.py:nullSpace"]}
{"id": "C117", "title": "distanceToFiber is the angle to the nearest orientation of the fiber", "statement": "distanceToFiber returns the smallest angle between the sample direction and the directions that the orientation gives to the equivalents of the crystal direction; it is zero exactly for the orientations on the fiber.", "quantifier": "every direction, orientation, symmetry group, with and without inversion", "why_tests_cant": "a minimum over all equivalents for all real inputs", "anchors": ["hexrd/core/rotations.py:distanceToFiber", "hexrd/core/rotations.py:applySym"]}
{"id": "C118", "title": "uniqueVectors keeps one vector of each group of duplicates, in order", "statement": "uniqueVectors returns vectors taken from the input, in dictionary order with the last coordinate first, any two differing by more than the tolerance in some coordinate, such that each input vector is near one returned; without tolerance exactly the input vectors, once each.", "quantifier": "every list of vectors, dimension and tolerance", "why_tests_cant": "all arrays; chains of near duplicates", "anchors": ["hexrd/core/matrixutil.py:uniqueVectors"]}
{"id": "C119", "title": "The average of orientations is the middle of their symmetric copies", "statement": "quatAverageCluster of one orientation is that orientation; of two it is half way along the smallest rotation from the first to a copy of the second; of more it is, up to crystal symmetry, the orientation with the greatest sum of quaternion dot products with the representatives near the first, lies in the fundamental region, is no farther from the first than the farthest of the others, and is equivalent to the inputs if they are equivalent.", "quantifier": "every list of orientations and every symmetry group", "why_tests_cant": "an extremum over all orientations, for all real inputs", "anchors": ["hexrd/core/rotations.py:quatAverageCluster"]}
{"id": "C12", "title": "Processed series: frame_list reindexes frames and metadata consistently", "statement": "A ProcessedImageSeries with a frame_list has length len(frame_list), frame i is the processed base frame frame_list[i], and omega metadata row i belongs to that same base frame; without frame_list it is the base series in order. The base series' metadata is never changed.", "quantifier": "every base series, op list and frame list", "why_tests_cant": "index composition for all lists", "anchors": ["hexrd/core/imageseries/process.py:ProcessedImageSeries"]}
{"id": "C120", "title": "Every orientation above the threshold goes into exactly one result or is noise", "statement": "run_cluster uses exactly the orientations whose completeness exceeds the threshold; each is noise or in exactly one cluster, no cluster is empty, and the orientations returned are the averages of the clusters, after merging the averages found to be duplicates; the algorithm used is the configured one or its documented fallback.", "quantifier": "every list of completenesses and orientations, clustering result, algorithm and option", "why_tests_cant": "all partitions the external clustering routines can return", "anchors": ["hexrd/hedm/findorientations.py:run_cluster"]}
{"id": "C121", "title": "Every cell of an eta-omega map is the sum of the intensities of its pixels", "statement": "Each cell of the map of a ring and a frame is the sum of the intensities (those below the threshold counted as zero) of exactly the pixels, of all detectors, whose two-theta lies in the ring's range and whose azimuth lies in the bin, and NaN if there are none; whatever the number of worker threads and the order in which they run; the azimuthal edges are the multiples of the step from the start of the period.", "quantifier": "every set of detectors, ring ranges, step, threshold, number of workers and interleaving", "why_tests_cant": "all schedules of the threads and all pixel positions", "anchors": ["hexrd/core/instrument/hedm_instrument.py:HEDMInstrument.extract_polar_maps", "hexrd/core/instrument/hedm_instrument.py:_run_histograms", "hexrd/hedm/instrument/generate_eta_omega_maps.py:GenerateEtaOmeMaps"]}
{"id": "C122", "title": "The rows of a map of several wedges are the frames at their omega", "statement": "For images taken in several omega wedges the maps have one row for every step of the common grid from the first to the last wedge; a row covered by a frame is labelled with the centre of that frame and holds its data, the others are NaN.", "quantifier": "every list of wedges and every step", "why_tests_cant": "all numbers, sizes and positions of wedges", "anchors": ["hexrd/hedm/instrument/generate_eta_omega_maps.py:GenerateEtaOmeMaps"]}
{"id": "C123", "title": "Maps are made of exactly the reflections asked for", "statement": "Making eta-omega maps uses the reflections asked for in the call, or else those in the configuration, or else all that are not excluded; a request with repeated or excluded reflections is refused; each map is made from the two-theta range of its own reflection, in the order of the request.", "quantifier": "every request, configuration and set of active reflections", "why_tests_cant": "all combinations of requests and exclusions", "anchors": ["hexrd/hedm/findorientations.py:generate_eta_ome_maps", "hexrd/core/instrument/hedm_instrument.py:HEDMInstrument.extract_polar_maps"]}
{"id": "C124", "title": "Saved maps mean the same reflections when they are read again", "statement": "Reading an archive of eta-omega maps gives the reflections, order, exclusions and reflection ids that were saved, and each id names the same reflection as before; maps that are read, or made because the file is missing, are filtered as configured.", "quantifier": "every plane data that can be reached by assignments and every list of ids", "why_tests_cant": "all histories of exclusions and all orders of reflections", "anchors": ["hexrd/hedm/xrdutil/utils.py:EtaOmeMaps", "hexrd/hedm/findorientations.py:load_eta_ome_maps"]}
{"id": "C125", "title": "Cleaning leaves the excess over the median, filtering makes the medians zero", "statement": "clean_map replaces each value by its excess over the median of the map, and by zero if it is not above the median or NaN; filtering subtracts the median of each azimuthal column, after which that median is zero and filtering again changes nothing.", "quantifier": "every map with any pattern of NaNs", "why_tests_cant": "all real arrays and patterns of missing values", "anchors": ["hexrd/hedm/findorientations.py:clean_map", "hexrd/hedm/findorientations.py:_filter_eta_ome_maps", "hexrd/hedm/findorientations.py:filter_maps_if_requested"]}
{"id": "C126", "title": "Every peak of a map makes one seed at its angles", "statement": "Each peak found in the map of a seed ring makes exactly one seed, in order, with the reflection and two-theta of its ring; its omega and azimuth are those of its pixel position, the centre of pixel (i, j) being at the angles of that pixel; peaks that are NaN make none.", "quantifier": "every list of rings, peaks and uniform grid", "why_tests_cant": "all real positions and grids", "anchors": ["hexrd/hedm/findorientations.py:generate_orientation_fibers"]}
{"id": "C127", "title": "Phase transformation variants: one per class, as many as predicted", "statement": "For two crystals with given parallel planes and directions, the variants are the copies by the operations of the parent of the rotation that makes them parallel, exactly one for each class under the operations of the child; their number is the number of operations of the parent divided by that of the operations both crystals share, and is the number predicted.", "quantifier": "every pair of point groups and of plane and direction lying in it", "why_tests_cant": "all finite groups, planes and directions", "anchors": ["hexrd/phase_transition/variants.py:getPhaseTransformationVariants", "hexrd/phase_transition/variants.py:getOR", "hexrd/phase_transition/variants.py:expected_num_variants"]}
{"id": "C128", "title": "A convolution is the weighted sum, and over gaps the weighted mean of what is there", "statement": "convolve gives at every place the sum of the values under the reversed kernel, divided by its sum if normalised; beyond the ends values are filled, repeated or wrapped as asked; where values are masked or NaN, they are filled or left out and the result is the mean of the numbers under the kernel; with weights that are not negative the result lies between the lowest and highest value used; even kernels, kernels that cannot be normalised or do not fit are refused.", "quantifier": "every one-dimensional array with any pattern of NaNs, mask, kernel and options", "why_tests_cant": "all arrays, kernels and patterns of gaps", "anchors": ["hexrd/core/convolution/convolve.py:convolve", "hexrd/core/convolution/src/convolve.c:convolve1d_c"]}
{"id": "C129", "title": "The SNIP background lies below the data and is independent of the workers", "statement": "snip1d gives every pixel above the threshold a background between the lowest visible value of its row and its own value, so that a flat row is its own background; hidden pixels and NaNs get the threshold; the background is that of the passes of the peak clipping algorithm in the log-log space; shifting the image shifts the background; the order in which workers finish does not matter.", "quantifier": "every image with any pattern of NaNs, threshold, window and number of passes, every order of the workers", "why_tests_cant": "all images and schedules", "anchors": ["hexrd/core/imageutil.py:snip1d", "hexrd/core/imageutil.py:_run_snip1d_row", "hexrd/core/imageutil.py:_scale_image_snip", "hexrd/core/imageutil.py:fast_snip1d"]}
{"id": "C13", "title": "Flip operations form the expected symmetry group", "statement": "The flip codes implement the dihedral group of the square on images of any shape: each code maps pixels bijectively, v/h/t/r180 are involutions, r90 four times is the identity, r270 inverts r90, r180 = v after h, t relates r90 to flips; synonyms agree; unknown codes do nothing.", "quantifier": "every image of every shape and every code sequence", "why_tests_cant": "all shapes and contents", "anchors": ["hexrd/core/imageseries/process.py:ProcessedImageSeries._flip"]}
{"id": "C130", "title": "Each grain is fitted from its own row, whatever the schedule", "statement": "fit_grains returns for every grain, in the order of the table, its number, completeness, chi squared and parameters as fitting that row alone would, in one process or with any distribution over workers; a finite chi squared belongs to the parameters returned and to more than 12 reflections found with the last tolerances, an infinite one means that too few were found with the parameters returned", "quantifier": "all tables numbered by row, all sequences of tolerances, all distributions of chunks over workers, all instruments, images and optimisers", "why_tests_cant": "the workers update their own copies of the table in place, so whether one grain's fit can leak into another depends on the distribution of the chunks; tests run one", "anchors": ["hexrd/hedm/fitgrains.py:fit_grains", "hexrd/hedm/fitgrains.py:fit_grain_FF_reduced", "hexrd/hedm/fitting/grains.py:fitGrain"]}
{"id": "C131", "title": "The reflections used in a fit are those found, unsaturated and within the tolerances", "statement": "determine_valid_reflections keeps, in order, the spots that were found and are below the saturation level of their panel, counts those found and gives their fraction; refine_valid_reflections keeps those whose measured position and omega are within the tolerances of the calculated ones", "quantifier": "all panels, spots, intensities (also NaN), saturation levels and tolerances", "why_tests_cant": "the selection must be right for every combination of missing, saturated and displaced spots", "anchors": ["hexrd/hedm/fitgrains.py:determine_valid_reflections", "hexrd/hedm/fitgrains.py:refine_valid_reflections"]}
{"id": "C132", "title": "The residuals of a grain compare every reflection with its nearer calculated position", "statement": "objFuncFitGrain gives three residuals for every reflection, panel by panel: the calculated position at the one of the two omegas that is nearer to the measured omega around the circle, less the measured position with the distortion undone, and the distance of the omegas; matchOmegas chooses that omega; chi squared is the sum of squares divided by the degrees of freedom, not negative, and zero only for a perfect fit", "quantifier": "all reflections, measured omegas, omega periods, panels and numbers of reflections", "why_tests_cant": "which of two angles is nearer goes wrong only for particular combinations of scan start and reflection", "anchors": ["hexrd/hedm/fitting/grains.py:objFuncFitGrain", "hexrd/hedm/fitting/grains.py:matchOmegas"]}
{"id": "C133", "title": "Peak functions have the height, centre and widths of their parameters", "statement": "Gaussian, Lorentzian, pseudo-Voigt and split pseudo-Voigt peaks on a linear background take their full height at the centre, half of it half a full width away on each side, rise up to the centre and fall after it, and are symmetric (the split one on each side with its own width); the step goes from its height to zero around its centre; the two-dimensional ones, also rotated, and the three-dimensional one are the products along their own axes", "quantifier": "all heights, centres, non-zero widths, mixtures, angles, backgrounds and positions", "why_tests_cant": "agreement at some positions does not show that the widths mean full widths at half maximum at all parameters", "anchors": ["hexrd/core/fitting/peakfunctions.py"]}
{"id": "C134", "title": "The Jacobians are the partial derivatives", "statement": "The analytic derivatives of the Gaussian and Lorentzian peaks, and of the straight lines used for backgrounds, are the partial derivatives of the functions with respect to each parameter", "quantifier": "all parameters with non-zero width and all positions", "why_tests_cant": "a wrong derivative still lets some fits converge; only the limit definition settles it for all parameters", "anchors": ["hexrd/core/fitting/peakfunctions.py:gaussian1d_deriv", "hexrd/core/fitting/peakfunctions.py:lorentzian1d_deriv", "hexrd/core/fitting/fitpeak.py:lin_fit_jac", "hexrd/core/fitting/fitpeak.py:quad_fit_jac"]}
{"id": "C135", "title": "A multipeak model is the sum of its peaks and its background", "statement": "mpeak_1d gives at every position the sum of the single peaks and the background polynomial, whatever the order of the peaks; too few parameters are refused; the Thompson-Cox-Hastings mixture is a proper mixture of which the limits are the pure shapes and that does not depend on the unit", "quantifier": "all numbers of peaks, peak types, parameters, backgrounds and positions, all pairs of widths", "why_tests_cant": "the number of peaks is unbounded and the reshaping of parameters goes wrong only for some counts", "anchors": ["hexrd/core/fitting/peakfunctions.py:mpeak_1d", "hexrd/core/fitting/peakfunctions.py:_mixing_factor_pv", "hexrd/core/fitting/peakfunctions.py:_gaussian_pink_beam"]}
{"id": "C136", "title": "Peak fits minimise the difference to the data within their bounds, from a sensible guess", "statement": "The residuals of a peak fit are zero exactly for parameters that reproduce the data, and for bounded types lie within the bounds; the first guess stands at the highest point above the background line, passes through it, and has positive widths; the guess for several peaks has one peak at each given position in order and lies within its bounds; the factors of goodness of fit are not negative and vanish only for agreement", "quantifier": "all data on increasing positions, parameters, peak types, background fits and optimisers", "why_tests_cant": "the guess depends on where the maximum lies and on ties; bounds bind only for particular data", "anchors": ["hexrd/core/fitting/fitpeak.py:estimate_pk_parms_1d", "hexrd/core/fitting/fitpeak.py:estimate_mpk_parms_1d", "hexrd/core/fitting/fitpeak.py:fit_pk_parms_1d", "hexrd/core/fitting/fitpeak.py:fit_pk_obj_1d_bnded", "hexrd/core/fitting/fitpeak.py:goodness_of_fit"]}
{"id": "C137", "title": "The grid of a polar view covers its angular ranges", "statement": "The directions of a polar view are the middles of equal intervals that follow each other from the lower limits, their number is that of the pixels in the ranges to within half a pixel, the extent used for drawing is the union of the pixels, tth_to_pixel gives the pixel an angle is in, and no sequence of settings makes a range empty", "quantifier": "all limits, pixel sizes and sequences of settings, failing ones included", "why_tests_cant": "rounding of the number of pixels and half-pixel offsets go wrong only for particular ranges", "anchors": ["hexrd/core/projections/polar.py:PolarView.angular_grid", "hexrd/core/projections/polar.py:PolarView.extent", "hexrd/core/projections/polar.py:PolarView.tth_to_pixel"]}
{"id": "C138", "title": "A warped image is the sum of the interpolated detector images where the directions meet the panels", "statement": "Every value of the polar view is the sum over all detectors of the bilinear interpolation of their images where the direction of the pixel meets the used part of the panel; a pixel is masked unless it meets a panel away from excluded pixels; padding puts NaN exactly at masked pixels; the order of detectors does not matter and a cached mapping gives the same image", "quantifier": "all views, sets of detectors, buffers, projections and images, and all histories of warps", "why_tests_cant": "the number of detectors is unbounded and the mask depends on where points fall between excluded pixels", "anchors": ["hexrd/core/projections/polar.py:PolarView.warp_image", "hexrd/core/projections/polar.py:PolarView._generate_nan_mask", "hexrd/core/instrument/detector.py:_interpolate_bilinear_in_place"]}
{"id": "C139", "title": "Azimuthal bins of a polar view are means over the rows around their azimuth", "statement": "bin_polar_view gives one spectrum per azimuthal interval, each value being the mean of the values that are not NaN in the rows whose middle is within the integration range of the azimuth of the spectrum", "quantifier": "all polar images, intervals and ranges", "why_tests_cant": "the rows are selected by truncation, which is wrong only for particular ratios", "anchors": ["hexrd/core/projections/polar.py:bin_polar_view"]}
{"id": "C14", "title": "Leading-rectangle optimisation does not change the result", "statement": "Reading a region first through get_region gives the same frame as applying the rectangle operation to the whole image, for every following operation list and trailing index.", "quantifier": "every image, region, op list", "why_tests_cant": "equivalence of two code paths for all inputs", "anchors": ["hexrd/core/imageseries/process.py:ProcessedImageSeries._process_frame", "hexrd/core/imageseries/process.py:ProcessedImageSeries._rectangle_optimized", "hexrd/core/imageseries/process.py:ProcessedImageSeries._rectangle"]}
{"id": "C140", "title": "An orientation is in the fundamental zone of a point group exactly when no equivalent orientation is a smaller rotation", "statement": "insideFZ accepts an orientation given as a Rodrigues vector only if none of its equivalents under the Laue group of the point group is a smaller rotation, and accepts every orientation all of whose other equivalents are larger; ro2qu gives the quaternion of the rotation", "quantifier": "all point groups and all orientations, half turns included", "why_tests_cant": "the zones are polyhedra bounded by up to fourteen planes and errors show only near particular faces", "anchors": ["hexrd/hedm/sampleOrientations/rfz.py:insideFZ", "hexrd/hedm/sampleOrientations/conversions.py:ro2qu", "hexrd/core/constants.py:FZtypeArray"]}
{"id": "C141", "title": "Sampling returns the orientations of the grid points in the zone, whatever the threads do", "statement": "sampleRFZ maps a cubic grid to rotations: the surface of each cube goes to a sphere in proportion, opposite points to opposite rotations; it returns exactly the orientations of the grid points in the zone, unit quaternions that are the smallest of their equivalents, with the inverse of each, and with the identity for the default grid; the result does not depend on the order in which the threads run", "quantifier": "all point groups, spacings, kinds of grid and schedules of the parallel loops", "why_tests_cant": "grids have millions of points and the loops are parallel", "anchors": ["hexrd/hedm/sampleOrientations/sampleRFZ.py:_sample", "hexrd/hedm/sampleOrientations/conversions.py:cu2ro", "hexrd/hedm/sampleOrientations/conversions.py:cu2ho"]}
{"id": "C142", "title": "The orientations of a sampler belong to its settings", "statement": "After a setting of a sampleRFZ is assigned the orientations are those of the current point group, kind of grid and spacing, and the other settings are unchanged; settings that cannot be sampled are refused", "quantifier": "all sequences of assignments, failing ones included", "why_tests_cant": "histories of assignments are unbounded", "anchors": ["hexrd/hedm/sampleOrientations/sampleRFZ.py:sampleRFZ"]}
{"id": "C143", "title": "The confidence of an orientation at a point is the share of its reflections on the detector that are bright", "statement": "In a near field reconstruction the confidence is the number of simulated reflections that fall on a bright pixel of their frame, divided by the number of those that fall on the panel and not behind the beam stop; reflections that miss the panel or have no position do not count, the order does not matter, the value is between 0 and 1, and 1 exactly if all are bright", "quantifier": "all image stacks, panels, beam stops and reflections", "why_tests_cant": "edges of pixels and frames and the order of the tests matter for single reflections only", "anchors": ["hexrd/hedm/grainmap/nfutil.py:_quant_and_clip_confidence"]}
{"id": "C144", "title": "The table of confidences is complete and does not depend on chunks, processes or the order of results", "statement": "test_orientations fills every cell of the table with the confidence of its grain at its point, whatever the chunk size, the number of processes and the order in which results come back; with a limit on the number of points it does so for the first points", "quantifier": "all numbers of grains, points, processes and chunk sizes, and all schedules", "why_tests_cant": "schedules of worker processes cannot be enumerated", "anchors": ["hexrd/hedm/grainmap/nfutil.py:test_orientations", "hexrd/hedm/grainmap/nfutil.py:multiproc_inner_loop", "hexrd/hedm/grainmap/nfutil.py:_grand_loop_inner"]}
{"id": "C145", "title": "With several ranks every point is tested by one rank and the complete table is gathered", "statement": "get_offset_size gives every point to exactly one rank; rank 0 hands the same complete table to its controller that a run without MPI gives, and returns it", "quantifier": "all numbers of ranks, grains, points and processes", "why_tests_cant": "needs MPI runs of all sizes", "anchors": ["hexrd/hedm/grainmap/nfutil.py:get_offset_size", "hexrd/hedm/grainmap/nfutil.py:gather_confidence"]}
{"id": "C146", "title": "The grain map names the best grain of every point", "statement": "process_raw_confidence gives every point the first grain with the largest confidence and that confidence, or -1 if it is not above the threshold; with a table of names every grain gets its name", "quantifier": "all tables of confidences, thresholds, shapes and tables of names", "why_tests_cant": "errors show only for particular grains of the table", "anchors": ["hexrd/hedm/grainmap/nfutil.py:process_raw_confidence"]}
{"id": "C147", "title": "The test grid of a near field reconstruction consists of the centres of the voxels", "statement": "The points returned by gen_nf_test_grid are the centres of the cubic voxels that fill the cross section symmetrically about the axis and the layers between the vertical bounds, in the order of the reshaped arrays; equal bounds give one layer; gen_nf_test_grid_tomo gives the same points for a section of the same number of voxels; generate_test_grid gives evenly spaced samples with both ends", "quantifier": "all sections, bounds, spacings and numbers of samples", "why_tests_cant": "half voxel shifts and extra rows depend on the ratio of section and spacing", "anchors": ["hexrd/hedm/grainmap/nfutil.py:gen_nf_test_grid", "hexrd/hedm/grainmap/nfutil.py:gen_nf_test_grid_tomo", "hexrd/hedm/grainmap/nfutil.py:generate_test_grid"]}
{"id": "C148", "title": "Every good far field grain is tried in the whole cube of misorientations, and each trial orientation carries its grain's number", "statement": "gen_trial_exp_data keeps exactly the grains more complete and better fitting than the thresholds, tries each at all combinations of 2m+1 evenly spaced misorientations along the axes, and returns for each trial orientation the number of the far field grain it comes from", "quantifier": "all grain lists, thresholds and misorientation bounds that are a whole number of spacings", "why_tests_cant": "depends on numbers of grains and steps", "anchors": ["hexrd/hedm/grainmap/nfutil.py:gen_trial_exp_data"]}
{"id": "C149", "title": "Stitching puts the layers of every volume in their place", "statement": "output_grain_map returns arrays in which block i holds the layers of scan i (or, from the top down, of the scan that is i from the end), with Y moved by the shift of that block and all other arrays unchanged; the cells of the VTK file join the eight neighbouring points, and there are as many as announced", "quantifier": "all numbers of scans, shapes, spacings and both orders", "why_tests_cant": "an error in the bookkeeping of layers shows for particular numbers of scans", "anchors": ["hexrd/hedm/grainmap/nfutil.py:output_grain_map"]}
{"id": "C15", "title": "Dark subtraction clamps at zero", "statement": "Dark subtraction yields max(img - dark, 0) pixelwise for every pixel value.", "quantifier": "every image and dark", "why_tests_cant": "holds only if the pixel type does not wrap; all values", "anchors": ["hexrd/core/imageseries/process.py:ProcessedImageSeries._subtract_dark"]}
{"id": "C150", "title": "The scan of a detector parameter tries the experiment with that parameter replaced and nothing else", "statement": "Every trial of scan_detector_parm is evaluated with the given experiment in which only the chosen parameter has its trial value, whatever was tried before; the trial values are n+1 evenly spaced ones from the start to the end of the range; the experiment is as before afterwards", "quantifier": "all experiments, parameters, ranges and evaluations", "why_tests_cant": "accumulated changes depend on the sequence of trials", "anchors": ["hexrd/hedm/grainmap/nfutil.py:scan_detector_parm"]}
{"id": "C151", "title": "A reflection is kept exactly if its azimuth and its rotation angle lie in the given ranges", "statement": "Of the two solutions of every hkl, the filter keeps, in order and with their own hkl, exactly those whose azimuth is in one of the eta ranges and whose rotation angle is in one of the omega ranges, a decreasing omega range being read clockwise", "quantifier": "all hkl lists, solutions (undefined ones included) and lists of ranges", "why_tests_cant": "the reading of a range depends on the ranges listed before it", "anchors": ["hexrd/hedm/xrdutil/utils.py:_filter_hkls_eta_ome"]}
{"id": "C152", "title": "A simulated rotation series lists exactly the reflections that hit the panel, with matching columns", "statement": "For every grain, simulate_rotation_series returns ids, hkls, angles, positions and pixel sizes of the same length and in the same order: one entry for each solution in the eta and omega ranges whose position is defined and on the panel, its omega brought into the period, and none for others; it uses the given wavelength and refuses plane data with undefined two-theta; it does not change the plane data", "quantifier": "all grains, plane data, ranges, periods, panels and projections", "why_tests_cant": "columns can shift against one another only when some rows miss the plane and others the panel", "anchors": ["hexrd/core/instrument/detector.py:simulate_rotation_series", "hexrd/hed/xrdutil/utils.py:_project_on_detector_plane"]}
{"id": "C153", "title": "The energy correction is linear in the position, and simulateGVecs simulates", "statement": "The corrected wavelength has the energy of the nominal one plus slope times the distance of the grain from the intercept along the chosen axis; without a correction nothing changes; simulateGVecs returns the reflections on the panel", "quantifier": "all wavelengths, corrections and positions; all grains and ranges", "why_tests_cant": "unit and sign errors look plausible for single values", "anchors": ["hexrd/hedm/xrdutil/utils.py:apply_correction_to_wavelength", "hexrd/hedm/xrdutil/utils.py:simulateGVecs"]}
{"id": "C154", "title": "A setting of a far field analysis is read as a valid value or reading it raises", "statement": "For every configuration tree, reading the clustering algorithm, completeness, radius, omega period, fit tolerances, refit, flags, greatest two-theta, active hkls, seeds, search method, files, exclusion parameters and two-theta width returns the value in effect (a single number standing for two where two are needed) exactly if it is valid, and raises otherwise; files that are returned exist; exclusion parameters are the ones in effect", "quantifier": "all configuration trees with any kind of value at any key, all file systems", "why_tests_cant": "the kinds of value a YAML file can hold at each key are endless, and defaults, nulls and types interact", "anchors": ["hexrd/hedm/config/findorientations.py", "hexrd/hedm/config/fitgrains.py", "hexrd/core/config/material.py", "hexrd/core/config/utils.py:get_exclusion_parameters", "hexrd/core/config/config.py:check_filename"]}
{"id": "C155", "title": "The azimuths searched avoid the poles by the mask, and the fiber divisions are the greatest not finer than the step", "statement": "For every mask from 0 on, an azimuth is in one of the eta ranges exactly if it is at least the mask away from both poles; for every positive step, the number of divisions n satisfies n * step <= 360 < (n + 1) * step, and is exact if the step divides the circle; a zero step raises", "quantifier": "all masks and steps", "why_tests_cant": "off-by-one and rounding at arbitrary rational steps", "anchors": ["hexrd/hedm/config/findorientations.py:EtaConfig", "hexrd/hedm/config/findorientations.py:SeedSearchConfig"]}
{"id": "C156", "title": "Results of different analyses are put in different files", "statement": "For every working directory, analysis name and material, the five results of an analysis are different files, and analyses with different names or materials use different files", "quantifier": "all names and materials, both placements", "why_tests_cant": "collisions need particular pairs of names", "anchors": ["hexrd/core/config/root.py:analysis_id", "hexrd/hedm/config/findorientations.py"]}
{"id": "C157", "title": "Image series and exclusion parameters are those of the configuration", "statement": "For every history of settings and accesses, the image series are the ones listed (one for each panel) and the exclusion parameters those in effect; an access that fails fails again", "quantifier": "all lists of image series, all histories of set and access", "why_tests_cant": "depends on the order of sets and first accesses, and on failures in between", "anchors": ["hexrd/core/config/root.py:image_series", "hexrd/core/config/root.py:fit_grains", "hexrd/hedm/config/fitgrains.py"]}
{"id": "C158", "title": "The chunks of a composite detector tile it", "statement": "For every number and size of tiles and every gap, generate_chunks lists the chunks in order of rows and columns with labels row_column, no two alike; a pixel is in some chunk exactly if neither its row nor its column is in a gap, and then in one only", "quantifier": "all numbers of tiles, tile sizes, gaps and pixels", "why_tests_cant": "a wrong boundary shows at particular pixels only", "anchors": ["hexrd/core/instrument/hedm_instrument.py:generate_chunks"]}
{"id": "C159", "title": "Cutting an instrument into chunks leaves every pixel where it is", "statement": "For every instrument and list of chunks, chunk_instrument has one entry for each chunk of each panel; its shape is that of the chunk, its pixels are where they were on the panel, its mask is the part of the panel's mask and its region of interest starts at the chunk", "quantifier": "all instruments, orientations, pixel sizes, masks and chunks", "why_tests_cant": "half a pixel is not seen on an image, and names may collide for particular panels", "anchors": ["hexrd/core/instrument/hedm_instrument.py:chunk_instrument", "hexrd/core/instrument/detector.py:pixelToCart", "hexrd/core/instrument/detector.py:config_dict"]}
{"id": "C16", "title": "Sparse frame extraction is lossless above threshold", "statement": "Extracting (row,col,value) triplets above a threshold and rebuilding the frame gives the original image with every pixel <= threshold replaced by 0, for every image whose shape fits the index type.", "quantifier": "every image, threshold, buffer size", "why_tests_cant": "all images; index width", "anchors": ["hexrd/core/matrixutil.py:extract_ijv", "hexrd/core/imageseries/save.py:WriteFrameCache", "hexrd/core/imageseries/load/framecache.py:FrameCacheImageSeriesAdapter"]}
{"id": "C160", "title": "Each panel gets its own images", "statement": "For every dictionary of images, a panel gets those under its name, or else the part in its region of the shared images, of the only images whose name contains its own, or of its group's images, and an error otherwise; stacks of images are cut like single ones", "quantifier": "all dictionaries, names, groups, regions, image series, images and stacks", "why_tests_cant": "depends on which names contain which", "anchors": ["hexrd/core/instrument/hedm_instrument.py:_parse_imgser_dict"]}
{"id": "C161", "title": "The beam direction and its azimuth and polar angle determine one another", "statement": "For every azimuth and polar angle the beam vector is a unit vector against the direction they give; for every vector the angles of its direction give the direction back, and for every azimuth in (-180, 180] and polar angle in (0, 180) the angles are got back", "quantifier": "all angles and all vectors", "why_tests_cant": "inverse trigonometric functions have quadrants and poles", "anchors": ["hexrd/core/instrument/hedm_instrument.py:calc_beam_vec", "hexrd/core/instrument/hedm_instrument.py:calc_angles_from_beam_vec"]}
{"id": "C162", "title": "Wedges, edge centres and the greatest two-theta are what they say", "statement": "angle_in_range returns the first wedge that contains the angle up to whole turns, and NaN exactly if there is none; centers_of_edge_vec returns the middle of each pair of neighbouring edges; max_tth is the greatest two-theta of all pixels", "quantifier": "all angles, wedges, edges and panels", "why_tests_cant": "modular arithmetic at the ends of wedges", "anchors": ["hexrd/core/instrument/hedm_instrument.py:angle_in_range", "hexrd/core/instrument/hedm_instrument.py:centers_of_edge_vec", "hexrd/core/instrument/hedm_instrument.py:max_tth"]}
{"id": "C163", "title": "An instrument made into calibration parameters and updated from them is unchanged", "statement": "For every instrument, angle convention and relative constraint, updating the instrument from the parameters created for it leaves every beam, the sample frame and every panel's position, orientation, radius and distortion as they were", "quantifier": "all instruments, beams, panels, conventions and constraints", "why_tests_cant": "names are made from the panels' names, and conversions of angles lose particular orientations", "anchors": ["hexrd/core/fitting/calibration/lmfit_param_handling.py:create_instr_params", "hexrd/core/fitting/calibration/lmfit_param_handling.py:update_instrument_from_params"]}
{"id": "C164", "title": "An update puts every beam, the frame and every panel where its parameters say", "statement": "After a successful update without constraints every beam has the energy and direction of its parameters, chi and the frame's translation are theirs, each panel has the orientation of its angles, its translation and radius, and the direction of the active beam; names and groups are kept", "quantifier": "all instruments and parameter values", "why_tests_cant": "each name must reach its own panel in its own units", "anchors": ["hexrd/core/fitting/calibration/lmfit_param_handling.py:update_instrument_from_params", "hexrd/core/fitting/calibration/lmfit_param_handling.py:update_unconstrained_detector_parameters"]}
{"id": "C165", "title": "What the optimiser tried does not matter to the result", "statement": "For every sequence of parameter sets tried during a calibration without constraints, the instrument, materials and grains at the end are those got by applying the answer to the state at the start", "quantifier": "all sequences of trials and all answers", "why_tests_cant": "quantifies over histories", "anchors": ["hexrd/core/fitting/calibration/instrument.py:InstrumentCalibrator.run_calibration", "hexrd/core/fitting/calibration/instrument.py:InstrumentCalibrator.update_all_from_params"]}
{"id": "C166", "title": "Material parameters are those of the lattice type and come back", "statement": "A material has one parameter for each free lattice parameter of its lattice type with the refinement given for it in order; a material updated from parameters is a cell of its type with their values, from its own parameters the cell it was, and its beam energy is the instrument's", "quantifier": "all lattice types, cells, refinements and values", "why_tests_cant": "seven lattice types with different free parameters and units", "anchors": ["hexrd/core/fitting/calibration/lmfit_param_handling.py:create_material_params", "hexrd/core/fitting/calibration/lmfit_param_handling.py:update_material_from_params"]}
{"id": "C167", "title": "Fixed grain parameters and plate constraints hold", "statement": "Fixing strain, translation or height forces exactly those parameters to their values, holds them and keeps their bounds around them; under the TARDIS constraint the distance of the two plates comes out in the allowed range, both are moved alike, and plates already in range stay", "quantifier": "all parameter sets, bounds and plate positions", "why_tests_cant": "bounds may lie on either side of the forced value", "anchors": ["hexrd/core/fitting/calibration/abstract_grain.py:AbstractGrainCalibrator", "hexrd/core/fitting/calibration/lmfit_param_handling.py:add_engineering_constraints"]}
{"id": "C168", "title": "All calibrators' parameters together have unique names and each calibrator gets its own back", "statement": "For every set of calibrators the parameters have different names, the instrument's come first with their values, no two calibrators share a name, and a grain updated from its own parameters is the grain it was", "quantifier": "all instruments, materials, grains and calibrators", "why_tests_cant": "names collide for particular combinations", "anchors": ["hexrd/core/fitting/calibration/instrument.py:InstrumentCalibrator.make_lmfit_params", "hexrd/core/fitting/calibration/powder.py:PowderCalibrator.create_lmfit_params", "hexrd/core/fitting/calibration/abstract_grain.py:AbstractGrainCalibrator.create_lmfit_params"]}
{"id": "C169", "title": "A spots file has one readable line for every spot dumped", "statement": "For every sequence of spots dumped to a text file, its lines are the header and one line for each spot in order; split at blanks, a line is the texts of its seventeen values in the order of the header, with not-a-number for everything measured if nothing was; texts that fit their width stand under the names of the header", "quantifier": "all sequences of spots, values and texts of any length", "why_tests_cant": "padding and separators must keep fields apart for texts of every length, and the file depends on the history of calls", "anchors": ["hexrd/core/instrument/hedm_instrument.py:PatchDataWriter"]}
{"id": "C17", "title": "Parallel fch5 frame-cache writing is schedule independent", "statement": "For every interleaving of the writer threads, every frame read back from the resulting file equals the thresholded source frame; frames occupy disjoint ranges and the file size is the total number of stored pixels.", "quantifier": "every series, thread count and interleaving of the thread steps", "why_tests_cant": "interleavings are unbounded", "anchors": ["hexrd/core/imageseries/save.py:WriteFrameCache._write_frames_fch5", "hexrd/core/imageseries/load/framecache.py:FrameCacheImageSeriesAdapter"]}
{"id": "C170", "title": "A grains file or table has one row for every grain, with its strain", "statement": "For every sequence of grains, the file has the header and one line for each, and a table gets one in each row from the first while rows beyond are left alone and a grain too many is refused; the values are id, completeness, chi squared, the twelve parameters and the components of the logarithm of the inverse of the symmetric matrix the last six stand for", "quantifier": "all sequences of grains, tables and parameters", "why_tests_cant": "depends on the history of calls and on conventions for six-vectors", "anchors": ["hexrd/core/instrument/hedm_instrument.py:GrainDataWriter"]}
{"id": "C171", "title": "Spots of an archive have different names", "statement": "Different spot numbers, however large, get different names in an archive, and a number written twice is refused", "quantifier": "all sequences of spot numbers", "why_tests_cant": "numbers outgrow the padding", "anchors": ["hexrd/core/instrument/hedm_instrument.py:GrainDataWriter_h5"]}
{"id": "C172", "title": "A point of a panel mapped to another plane is where its line meets the plane", "statement": "For every panel, plane and point, the mapped point is the one point of the plane on the line through the origin and the point, if the line is not parallel to the plane; mapping to the panel's own plane changes nothing, and mapping by way of a third plane gives the same", "quantifier": "all rotations, translations and points", "why_tests_cant": "continuous geometry and compositions", "anchors": ["hexrd/core/instrument/detector.py:Detector.map_to_plane"]}
{"id": "C173", "title": "The angular size of a pixel is the largest along its sides", "statement": "For every list of pixels and every geometry, each pixel gets the largest difference of two theta and the largest turn in eta between neighbouring corners, in the order given; whole turns of eta do not matter", "quantifier": "all geometries, pixels, pitches and distortions", "why_tests_cant": "eta wraps around at a branch that may pass through any pixel", "anchors": ["hexrd/hedm/xrdutil/utils.py:angularPixelSize", "hexrd/hedm/xrdutil/utils.py:_compute_max", "hexrd/hedm/xrdutil/utils.py:_expand_pixels"]}
{"id": "C174", "title": "A frame cache has the frames asked for at their omegas", "statement": "For every file of images, number of frames and first frame, the cache has that many frames, frame k being the processed raw frame first + k with the k-th of that many equal steps of omega; a range beyond the file is refused, and other caches are left alone", "quantifier": "all files, ranges and omegas", "why_tests_cant": "the list of frames is only used for some numbers of frames", "anchors": ["hexrd/hedm/preprocess/preprocessors.py:PP_Base", "hexrd/hedm/preprocess/preprocessors.py:PP_Eiger", "hexrd/hedm/preprocess/preprocessors.py:preprocess"]}
{"id": "C175", "title": "Every panel's file is processed with its own options into its own cache", "statement": "For every set of files with different stems, each with the name of one panel in its path, each is saved in the cache of its stem with the panel's options after the median of its first frames is subtracted, and the name of the panel", "quantifier": "all sets of files and panels", "why_tests_cant": "names are matched anywhere in a path", "anchors": ["hexrd/hedm/preprocess/preprocessors.py:PP_Dexela", "hexrd/hedm/preprocess/preprocessors.py:preprocess"]}
{"id": "C176", "title": "Settings of fit parameters by name reach exactly the parameters named", "statement": "For every set of parameters and every text, setting refinement, bounds, boxes or ties by a text changes exactly the parameters with the text in their names, as asked, and leaves values and order; tied parameters are equal in every admissible state of a fit; a text no name has is refused for refinement and ties", "quantifier": "all sets of parameters, texts and bounds", "why_tests_cant": "names are matched anywhere, and sets of names are open", "anchors": ["hexrd/core/fitting/utils.py:_set_refinement_by_name", "hexrd/core/fitting/utils.py:_set_equality_constraints", "hexrd/core/fitting/utils.py:_set_bound_constraints", "hexrd/core/fitting/utils.py:_set_width_mixing_bounds"]}
{"id": "C177", "title": "Centres of fitted peaks stay in order, apart and in the window", "statement": "For every set of parameters and separation, peaks closer than the separation are refused; otherwise in every admissible state of a fit the centres keep their order and are apart by at least the separation, and the fit may start from the values given", "quantifier": "all sets of peaks and all values a fit may try", "why_tests_cant": "the states a fit passes through are a continuum", "anchors": ["hexrd/core/fitting/utils.py:_set_peak_center_bounds"]}
{"id": "C178", "title": "Radiographs are the attenuation of the images numbered", "statement": "For every folder, first number and number of images, radiograph k is read from the file of number first + k, different numbers are different files, and at each pixel the bright beam times exp of minus the radiograph is the image, after the dark field is taken off; a bright field is the median of the images numbered", "quantifier": "all names, numbers, widths of numbers and intensities", "why_tests_cant": "numbers may be wider than their padding, intensities are a continuum", "anchors": ["hexrd/hedm/grainmap/tomoutil.py:gen_bright_field", "hexrd/hedm/grainmap/tomoutil.py:gen_median_image", "hexrd/hedm/grainmap/tomoutil.py:gen_attenuation_rads"]}
{"id": "C179", "title": "Cleaning of a tomography layer removes small objects and closes small holes only", "statement": "For every image and thresholds, every object below the size given is removed, every hole below its size is closed, and no other pixel changes", "quantifier": "all images, labellings and sizes", "why_tests_cant": "an image may have any number of objects", "anchors": ["hexrd/hedm/grainmap/tomoutil.py:threshold_and_clean_tomo_layer"]}
{"id": "C18", "title": "npz frame-cache writing is schedule independent", "statement": "For every interleaving of writer threads sharing the output dictionary, each frame read back equals the thresholded source frame; buffers are never shared by two threads at the same time.", "quantifier": "every series, thread count, interleaving", "why_tests_cant": "interleavings are unbounded", "anchors": ["hexrd/core/imageseries/save.py:WriteFrameCache._write_frames_npz", "hexrd/core/imageseries/load/framecache.py"]}
{"id": "C180", "title": "Sinograms are cut around the rotation axis and layers around their middle", "statement": "For every sinogram, centre and sample size, the columns kept are centred on the rotation axis and as many as the sample needs, up to one; for every layer, the pixels kept are the middle ones of the sample's size, within the circular mask if there is one", "quantifier": "all sizes, centres and masks", "why_tests_cant": "offsets depend on rounding of quotients", "anchors": ["hexrd/hedm/grainmap/tomoutil.py:tomo_reconstruct_layer", "hexrd/hedm/grainmap/tomoutil.py:crop_and_rebin_tomo_layer"]}
{"id": "C181", "title": "Every measured ring has one parameter of its own", "statement": "For every set of beams and measurements, the parameters are one for each ring measured on some panel, with the mean of its angles, five degrees to both sides, and names that are different for different rings and beams", "quantifier": "all names of beams, rings and panels", "why_tests_cant": "names are put together from parts that may contain each other", "anchors": ["hexrd/core/fitting/calibration/lmfit_param_handling.py:create_tth_parameters", "hexrd/core/fitting/calibration/lmfit_param_handling.py:tth_parameter_prefixes"]}
{"id": "C182", "title": "Commands do not overwrite results unless told to, and start from what was asked for", "statement": "Without --force or --clean, fit-grains and find-orientations change no file of results that exists, at whatever moment they stop; a fit-grains run that ends has fitted every analysis of the file, starting from its estimate if there is one and --clean is not given, and from the accepted orientations otherwise", "quantifier": "all options, lists of analyses, states of the disk and moments of a crash", "why_tests_cant": "the disk may be in any state and the command may stop at any moment", "anchors": ["hexrd/hedm/cli/fit_grains.py:execute", "hexrd/hedm/cli/fit_grains.py:write_results", "hexrd/hedm/cli/find_orientations.py:execute", "hexrd/hedm/cli/find_orientations.py:write_results", "hexrd/hedm/config/fitgrains.py:FitGrainsConfig.estimate"]}
{"id": "C183", "title": "Tables of grains keep the grains whole", "statement": "For every table of grains, selection by completeness and fit keeps the grains that meet both and no others, each with all its numbers and in order; grains written to a table or a file are read back as they were", "quantifier": "all tables, thresholds and numbers of grains", "why_tests_cant": "tables have any number of grains", "anchors": ["hexrd/hedm/cli/fit_grains.py:GrainData"]}
{"id": "C184", "title": "The starting point of a grain is its accepted orientation", "statement": "For every accepted orientation, the rotation vector written for it is the rotation of the quaternion found, with no translation and no stretch", "quantifier": "all unit quaternions", "why_tests_cant": "orientations are a continuum", "anchors": ["hexrd/hedm/cli/find_orientations.py:write_results", "hexrd/hedm/cli/fit_grains.py:execute"]}
{"id": "C185", "title": "Directions are mapped to the plane as the method says, one to one, without touching the input", "statement": "For every list of angles or directions, tilt, matrix and method, each point is the stereographic or the equal-area image of the direction meant, in order; the mask tells which ones are kept; different directions have different images, discs of the equal-area map have the area of their caps, and the input is not changed", "quantifier": "all angles, directions, matrices and options", "why_tests_cant": "directions are a continuum", "anchors": ["hexrd/hedm/xrdutil/utils.py:zproject_sph_angles"]}
{"id": "C186", "title": "A field of a layer of the physics package reads as last assigned", "statement": "After any history of assignments, also ones that were refused, each attribute layer_field of a physics package reads as the value last assigned to it, or its initial value; the radius of the pinhole and its diameter are two names of one number; a cylinder has its thickness as diameter; only the type, a diameter of a sample and a radius that is no number are refused", "quantifier": "all histories of assignments of any names and values", "why_tests_cant": "a value is kept in two places that must agree after every history", "anchors": ["hexrd/core/instrument/physics_package.py:AbstractPhysicsPackage", "hexrd/core/instrument/physics_package.py:HEDPhysicsPackage", "hexrd/core/instrument/physics_package.py:HEDMPhysicsPackage"]}
{"id": "C187", "title": "A saved physics package is read back whole", "statement": "For every history of a package, what serialize gives names each field of each layer once with its value, and a package of the same type that deserializes it, whatever it held before, has the same values and saves the same", "quantifier": "all histories of both packages", "why_tests_cant": "both packages may have any history", "anchors": ["hexrd/core/instrument/physics_package.py:AbstractPhysicsPackage.serialize", "hexrd/core/instrument/physics_package.py:AbstractPhysicsPackage.deserialize"]}
{"id": "C188", "title": "Standoff and absorption are of the layers as assigned", "statement": "After any history of assignments, the standoff of a layer is the sum of the thicknesses of the layers between it and the pinhole, and lengths of absorption are computed from the density of the layer asked for and its formula, or its material if it has none, one for each energy", "quantifier": "all histories, layers and lists of energies", "why_tests_cant": "thicknesses and histories are unbounded", "anchors": ["hexrd/core/instrument/physics_package.py:HEDPhysicsPackage.layer_standoff", "hexrd/core/instrument/physics_package.py:HEDPhysicsPackage.absorption_length", "hexrd/core/instrument/physics_package.py:HEDPhysicsPackage.layer_thickness"]}
{"id": "C189", "title": "A layer of a detector reads as made, and as saved", "statement": "For all arguments, a filter, coating or phosphor reads as it was made, with 0 for numbers not given; unknown arguments and phosphors without their two numbers are refused; a layer that deserializes what another layer of its class saved reads as that layer, whatever was assigned to either before", "quantifier": "all arguments and histories of assignments", "why_tests_cant": "arguments and histories are unbounded", "anchors": ["hexrd/core/instrument/detector_coatings.py:AbstractLayer", "hexrd/core/instrument/detector_coatings.py:Phosphor"]}
{"id": "C19", "title": "Multi-file image series address every frame exactly once", "statement": "The map from series index to (file, frame) enumerates, in order, the non-empty frames of each file (after skipping the leading empty frames and limiting per file and in total); every key in [-n,n) is mapped as Python list indexing would, every other key raises LookupError.", "quantifier": "every list of files with frame counts, empty counts, limits and every integer key", "why_tests_cant": "index arithmetic for all configurations", "anchors": ["hexrd/core/imageseries/load/imagefiles.py:ImageFilesImageSeriesAdapter._file_and_frame", "hexrd/core/imageseries/load/imagefiles.py:FileInfo"]}
{"id": "C190", "title": "Colours keep hue, saturation and lightness", "statement": "For every array of hues, saturations and lightnesses, each colour is that of its hue on the wheel of colours with the range its saturation and lightness give, all parts in [0, 1]; converting it back gives the same hue, saturation and lightness, and every colour converted there and back is itself; values outside of [0, 1] are refused, and the input is not changed", "quantifier": "all arrays of colours", "why_tests_cant": "colours are a continuum, with six sectors that must fit at their borders", "anchors": ["hexrd/hedm/ipfcolor/colorspace.py:hsl2rgb", "hexrd/hedm/ipfcolor/colorspace.py:rgb2hsl"]}
{"id": "C191", "title": "Cards of materials are read as written", "statement": "For every JCPDS card, of either kind of file, each parameter is the one of the last line that gives it, the six lattice parameters are completed as the crystal system asks, the volume is that of the cell, and a file is refused if and only if a line has no first word or no number where there must be one", "quantifier": "all files and all readings of words as numbers", "why_tests_cant": "files have any number of lines in any order", "anchors": ["hexrd/core/material/jcpds.py:JCPDS_extend.read_file", "hexrd/core/material/jcpds.py:JCPDS_extend.calc_volume_unitcell"]}
{"id": "C192", "title": "Cards are written to and compared with materials of their own crystal system", "statement": "For every card and material, lattice and equation of state are written to the material if both have the same crystal system, and nothing else is; otherwise nothing is written and an error is raised; a material matches the card if its lattice parameters do", "quantifier": "all cards and materials", "why_tests_cant": "lattice parameters are a continuum", "anchors": ["hexrd/core/material/jcpds.py:JCPDS_extend.matches_material", "hexrd/core/material/jcpds.py:JCPDS_extend.write_lattice_params_to_material", "hexrd/core/material/jcpds.py:JCPDS_extend.write_pt_params_to_material"]}
{"id": "C20", "title": "Raw image files: frame count and offsets tile the file exactly", "statement": "A raw file is accepted iff it consists of the header and a whole number of frames; frame i is read from bytes [skip+i*framesize, skip+(i+1)*framesize), frames are disjoint and cover the file after the header.", "quantifier": "every file size, frame shape, pixel size, header size", "why_tests_cant": "arithmetic for all sizes", "anchors": ["hexrd/core/imageseries/load/rawimage.py:RawImageSeriesAdapter"]}
{"id": "C21", "title": "Config.set followed by get returns the value; other keys are untouched", "statement": "After cfg.set(key, v), cfg.get(key) returns v and cfg.get of every unrelated key is unchanged; get of a missing key returns the default or raises.", "quantifier": "every nested configuration and every colon-separated key", "why_tests_cant": "all nesting shapes including missing and empty blocks", "anchors": ["hexrd/core/config/config.py:Config.get", "hexrd/core/config/config.py:Config.set"]}
{"id": "C22", "title": "Section merging keeps overriding values and inherits the rest", "statement": "Opening a multi-document configuration gives sections where each key has the section's own value if it is given and not null, otherwise the inherited one, recursively for nested blocks; no key of either document is lost.", "quantifier": "every sequence of nested documents", "why_tests_cant": "all nested shapes", "anchors": ["hexrd/core/config/utils.py:merge_dicts", "hexrd/core/config/__init__.py:open"]}
{"id": "C23", "title": "The configured process count is usable", "statement": "For every multiprocessing setting and every CPU count n>=1 the resulting number of processes lies in [1, n] (invalid settings fall back with a warning).", "quantifier": "every setting and CPU count", "why_tests_cant": "all settings x machines", "anchors": ["hexrd/core/config/root.py:RootConfig.multiprocessing"]}
{"id": "C24", "title": "HDF5 dictionary storage round-trips", "statement": "Reading a dictionary back from HDF5 after storing it yields the same nested dictionary except that null entries are dropped and one-element arrays become scalars.", "quantifier": "every nested dictionary", "why_tests_cant": "all nested shapes", "anchors": ["hexrd/core/utils/hdf5.py:unwrap_dict_to_h5", "hexrd/core/utils/hdf5.py:unwrap_h5_to_dict"]}
{"id": "C25", "title": "Saving does not change the caller's data", "statement": "Storing a metadata dictionary to HDF5 leaves the caller's dictionary unchanged.", "quantifier": "every nested dictionary", "why_tests_cant": "effect visible only on nested inputs after the call", "anchors": ["hexrd/core/utils/hdf5.py:unwrap_dict_to_h5", "hexrd/core/imageseries/save.py:WriteFrameCache._write_frames_fch5"]}
{"id": "C26", "title": "Polygon clipping stays inside the clip polygon", "statement": "Every vertex of the Sutherland-Hodgman result lies in the clip polygon's half-planes and in the convex hull of the subject; for a convex counter-clockwise subject the result is convex and covers exactly the intersection of subject and clip region; clipping a polygon already inside returns it.", "quantifier": "every subject polygon and convex clip polygon", "why_tests_cant": "all polygons", "anchors": ["hexrd/core/gridutil.py:sutherlandHodgman", "hexrd/core/gridutil.py:isinside", "hexrd/core/gridutil.py:computeIntersection"]}
{"id": "C27", "title": "Polygon area is the exact area", "statement": "computeArea of a simple polygon equals half the absolute shoelace sum, is invariant under translation and cyclic relabelling; compute_areas agrees with it for every cell.", "quantifier": "every polygon", "why_tests_cant": "all coordinates", "anchors": ["hexrd/core/gridutil.py:computeArea", "hexrd/core/gridutil.py:compute_areas"]}
{"id": "C28", "title": "Grid connectivity enumerates each cell once with valid corners", "statement": "cellConnectivity(m,n,p,origin) has m*n*p rows of 4 (or 8) node numbers within range, cell (i,j) lists its own corners, orientation depends only on origin, distinct cells have distinct rows.", "quantifier": "every m,n,p", "why_tests_cant": "all sizes", "anchors": ["hexrd/core/gridutil.py:cellConnectivity", "hexrd/core/gridutil.py:_fill_connectivity"]}
{"id": "C29", "title": "cellIndices returns the cell containing the point", "statement": "For increasing or decreasing uniform edges and a point strictly inside the grid, cellIndices returns the unique cell index whose interval contains the point.", "quantifier": "every uniform grid and point", "why_tests_cant": "all coordinates", "anchors": ["hexrd/core/gridutil.py:cellIndices"]}
{"id": "C30", "title": "Duplicate-vector search gives a tolerance-separated representative set", "statement": "findDuplicateVectors returns representatives that are pairwise at least tol apart, and every vector not kept is within tol of an earlier vector; uid and eqv together list every index.", "quantifier": "every set of vectors and tolerance", "why_tests_cant": "all sets", "anchors": ["hexrd/core/matrixutil.py:findDuplicateVectors", "hexrd/core/matrixutil.py:_findduplicatevectors"]}
{"id": "C31", "title": "Symmetric-tensor vectorisations are inverse and norm preserving", "statement": "symmToVecMV/vecMVToSymm, strainTenToVec/strainVecToTen, stressTenToVec/stressVecToTen, symmToVecds/vecdsToSymm round-trip for every symmetric tensor (and every vector), and the Mandel forms preserve the inner product.", "quantifier": "every symmetric 3x3 tensor / 6-vector", "why_tests_cant": "identities over all reals", "anchors": ["hexrd/core/matrixutil.py:symmToVecMV", "hexrd/core/matrixutil.py:vecMVToSymm", "hexrd/core/matrixutil.py:strainTenToVec", "hexrd/core/matrixutil.py:vecdsToSymm"]}
{"id": "C32", "title": "Quaternion algebra: product, inverse, rotation matrices agree", "statement": "rotMatOfQuat of a unit quaternion is a proper rotation, q and -q give the same rotation, quatProduct composes rotations, invertQuat inverts, misorientation angle is symmetric and zero exactly for equal rotations.", "quantifier": "every unit quaternion (pair)", "why_tests_cant": "identities over all reals", "anchors": ["hexrd/core/rotations.py:quatProduct", "hexrd/core/rotations.py:invertQuat", "hexrd/core/rotations.py:rotMatOfQuat", "hexrd/core/rotations.py:fixQuat"]}
{"id": "C33", "title": "Quaternion conversion never loses a rotation", "statement": "Converting any rotation to a quaternion gives a unit quaternion representing that rotation.", "quantifier": "every rotation including half-turns", "why_tests_cant": "measure-zero cases that random tests never hit", "anchors": ["hexrd/core/rotations.py:_scipy_rotation_to_quat", "hexrd/core/rotations.py:quatOfRotMat", "hexrd/core/rotations.py:quatOfExpMap"]}
{"id": "C34", "title": "Laue symmetry sets are groups of the right order", "statement": "For each of the 11 Laue groups quatOfLaueGroup returns the full rotation group (closed under product and inverse up to sign, no duplicates) of the tabulated order.", "quantifier": "every Laue group and every pair of elements", "why_tests_cant": "a finite but complete check; exact arithmetic", "anchors": ["hexrd/core/rotations.py:quatOfLaueGroup"]}
{"id": "C35", "title": "mapAngle maps into the requested range and preserves the angle", "statement": "mapAngle returns a value inside the given range that differs from the input by a whole number of periods.", "quantifier": "every angle and range", "why_tests_cant": "all reals, both range ends", "anchors": ["hexrd/core/rotations.py:mapAngle"]}
{"id": "C36", "title": "angularDifference is the circular distance", "statement": "angularDifference(a,b) is the smallest absolute difference modulo the period: non-negative, at most half a period, symmetric, zero iff congruent.", "quantifier": "every pair of angles", "why_tests_cant": "all reals", "anchors": ["hexrd/core/rotations.py:angularDifference", "hexrd/core/rotations.py:angularDifference_opt"]}
{"id": "C37", "title": "validate_angle_ranges decides membership in circular ranges", "statement": "An angle is accepted iff it lies (mod 2*pi, within tolerance) on the counter-clockwise (or clockwise) arc from start to stop of some range; full circles accept everything.", "quantifier": "every angle and list of ranges", "why_tests_cant": "all reals, wrap-around", "anchors": ["hexrd/core/transforms/new_capi/validate_angle_ranges.c:validate_angle_ranges"]}
{"id": "C38", "title": "Oscillation angles satisfy the Bragg condition", "statement": "For every reflection for which oscill_angles_of_hkls returns finite values, both returned omegas satisfy b.(Rs(omega) g) = -sin(theta) and 2theta satisfies Bragg's law, and there is no other solution modulo 2*pi; NaN is returned exactly when no omega satisfies it.", "quantifier": "every hkl, orientation, B matrix, wavelength, strain, chi and beam vector", "why_tests_cant": "identity over all reals plus completeness", "anchors": ["hexrd/core/transforms/new_capi/oscill_angles_of_HKLs.c:oscill_angles_of_HKLs"]}
{"id": "C39", "title": "Frame matrices are proper rotations", "statement": "make_sample_rmat, make_detector_rmat, make_beam_rmat (non-collinear inputs), make_binary_rmat (unit axis), make_rmat_of_expmap produce orthogonal matrices of determinant 1, make_beam_rmat maps -z to the beam direction and puts eta=0 in the x-z half-plane; collinear input raises an error.", "quantifier": "all angles / vectors", "why_tests_cant": "identities over all reals", "anchors": ["hexrd/core/transforms/new_capi/make_sample_rmat.c", "hexrd/core/transforms/new_capi/make_detector_rmat.c", "hexrd/core/transforms/new_capi/make_beam_rmat.c", "hexrd/core/transforms/cpp_sublibrary/src/transforms.cpp"]}
{"id": "C40", "title": "gvec_to_xy returns the point where the diffracted ray meets the detector", "statement": "A returned finite point lies on the diffracted ray from the crystal position (non-negative distance) and on the detector plane; the diffracted direction is the mirror image of the beam about the G vector; NaN iff the ray does not hit the plane forwards.", "quantifier": "every geometry and G vector", "why_tests_cant": "identity over all reals", "anchors": ["hexrd/core/transforms/new_capi/gvec_to_xy.c:gvec_to_xy_vect"]}
{"id": "C41", "title": "xy_to_gvec inverts gvec_to_xy", "statement": "Mapping a G vector to detector coordinates and back yields the same unit G direction and its Bragg angle.", "quantifier": "every geometry and every unit G that diffracts onto the detector", "why_tests_cant": "identity over all reals", "anchors": ["hexrd/core/transforms/new_capi/xy_to_gvec.c:xy_to_gvec", "hexrd/core/transforms/new_capi/gvec_to_xy.c"]}
{"id": "C42", "title": "Distortion inverse undoes distortion", "statement": "For each detector distortion model apply_inverse(apply(xy)) = xy and apply(apply_inverse(xy)) = xy.", "quantifier": "every parameter set and every point", "why_tests_cant": "all reals, branch boundaries", "anchors": ["hexrd/core/distortion/dexela_2923.py", "hexrd/core/distortion/dexela_2923_quad.py", "hexrd/core/distortion/ge_41rt.py", "hexrd/core/transforms/cpp_sublibrary/src/inverse_distortion.cpp"]}
{"id": "C43", "title": "Direct and reciprocal lattice matrices are dual", "statement": "latticeVectors returns F and B with F^T B = I, vol = det F, cell lengths and angles of F equal the input parameters, for every lattice type.", "quantifier": "every admissible lattice parameter set", "why_tests_cant": "identities over all reals", "anchors": ["hexrd/core/material/crystallography.py:latticeVectors", "hexrd/core/material/crystallography.py:cosineXform"]}
{"id": "C44", "title": "PlaneData exclusions are consistent whatever the hkl ordering", "statement": "After setting exclusions (mask, index list or ranges, all in the current ordering), reading exclusions returns the same selection, and getHKLs/getTTh/getPlaneSpacings list exactly the non-excluded reflections.", "quantifier": "every sort permutation of reflections and every exclusion", "why_tests_cant": "depends on non-involutive sort permutations", "anchors": ["hexrd/core/material/crystallography.py:PlaneData.exclusions", "hexrd/core/material/crystallography.py:PlaneData._thisHKL"]}
{"id": "C45", "title": "Hexagonal/rhombohedral index conversions are inverse", "statement": "rhombohedralIndicesFromHexagonal(hexagonalIndicesFromRhombohedral(hkl)) = hkl for all integer hkl, and the converse holds exactly for obverse reflections (-H+K+L divisible by 3).", "quantifier": "every integer triple", "why_tests_cant": "all integers", "anchors": ["hexrd/core/material/crystallography.py:hexagonalIndicesFromRhombohedral", "hexrd/core/material/crystallography.py:rhombohedralIndicesFromHexagonal"]}
{"id": "C46", "title": "Units conversions are consistent", "statement": "Converting a value to another unit and back gives the value; addition/subtraction of quantities does not depend on the units they are expressed in; every pair of units of the same kind is convertible.", "quantifier": "every value and unit pair", "why_tests_cant": "all pairs and reals", "anchors": ["hexrd/core/valunits.py:valWUnit.getVal", "hexrd/core/valunits.py:valWUnit.__add__"]}
{"id": "C47", "title": "lmfit parameter names are unique and renaming is invertible", "statement": "rename_to_avoid_collision yields names distinct from the existing ones and from each other, changes nothing else, and returns a mapping from old to new names; validate_params_list accepts exactly duplicate-free lists.", "quantifier": "every list of parameters", "why_tests_cant": "all name sets", "anchors": ["hexrd/core/fitting/calibration/lmfit_param_handling.py:rename_to_avoid_collision", "hexrd/core/fitting/calibration/lmfit_param_handling.py:validate_params_list"]}
{"id": "C48", "title": "Distortion parameters return to their own slots after a fit", "statement": "Writing distortion parameters to the fit parameter set and reading them back gives the same list in the same order for the same detector.", "quantifier": "every number of parameters and every detector naming", "why_tests_cant": "orders and substring matches fail only for particular sizes/names", "anchors": ["hexrd/core/fitting/calibration/lmfit_param_handling.py:update_unconstrained_instrument_parameters", "hexrd/core/fitting/calibration/lmfit_param_handling.py:create_unconstrained_detector_params"]}
{"id": "C49", "title": "Group-constrained motion is rigid", "statement": "Applying a relative-constraint rotation and translation to a group of detectors preserves all inter-detector distances and relative orientations, and a zero change leaves every detector unchanged.", "quantifier": "every group, rotation, centre and translation", "why_tests_cant": "identity over all reals and all group sizes", "anchors": ["hexrd/core/fitting/calibration/lmfit_param_handling.py:update_system_constrained_detector_parameters", "hexrd/core/fitting/calibration/relative_constraints.py"]}
{"id": "C50", "title": "hkl strings round-trip", "statement": "str_to_hkl(hkl_to_str(hkl)) = hkl for every integer triple.", "quantifier": "every integer triple", "why_tests_cant": "all integers including negatives", "anchors": ["hexrd/core/utils/hkl.py"]}
{"id": "C51", "title": "Memoised functions called from several threads", "statement": "Calls of a memoised function made concurrently from several threads return the function's values and raise nothing that the function does not raise, for every interleaving.", "quantifier": "every set of concurrent calls and every interleaving of their cache operations", "why_tests_cant": "interleavings are unbounded", "anchors": ["hexrd/core/utils/decorators.py:memoize"]}
{"id": "C52", "title": "Cached results cannot be altered by callers", "statement": "No sequence of in-place writes by callers to arrays they received from a memoised function changes what later calls receive.", "quantifier": "every sequence of writes by callers", "why_tests_cant": "aliasing faults depend on what callers do with the result", "anchors": ["hexrd/core/utils/decorators.py:memoize", "hexrd/core/instrument/planar_detector.py:_pixel_angles"]}
{"id": "C53", "title": "Pixel angles follow the current distortion parameters", "statement": "After the parameters of a detector's distortion are assigned (as calibration does), pixel_angles / pixel gradients are those of the new parameters.", "quantifier": "every history of parameter assignments and pixel-angle queries", "why_tests_cant": "staleness depends on the history of queries and assignments", "anchors": ["hexrd/core/instrument/planar_detector.py:_pixel_angles", "hexrd/core/utils/decorators.py:_make_hashable", "hexrd/core/fitting/calibration/lmfit_param_handling.py:update_instrument_from_params"]}
{"id": "C54", "title": "Inserted rows and columns", "statement": "add-row (add-column) inserts exactly one zero row (column) at the requested index and keeps every other row in order; the index follows Python conventions in [-n, n] and raises outside.", "quantifier": "every image of every shape and every integer index", "why_tests_cant": "gap panels are repaired with these ops at arbitrary positions; tests use one position", "anchors": ["hexrd/core/imageseries/process.py:ProcessedImageSeries._add_row", "hexrd/core/imageseries/process.py:ProcessedImageSeries._add_col"]}
{"id": "C55", "title": "Frame-cache metadata round trip", "statement": "Metadata saved with an npz frame cache comes back under the same keys with the same values (nested dictionaries excepted), and saving metadata never changes the image data or the number of frames.", "quantifier": "every metadata dictionary, every series and every writer schedule", "why_tests_cant": "metadata keys are free text chosen by users; the writer and the frames share one namespace", "anchors": ["hexrd/core/imageseries/save.py:WriteFrameCache._process_meta", "hexrd/core/imageseries/save.py:WriteFrameCache._write_frames_npz", "hexrd/core/imageseries/load/framecache.py:FrameCacheImageSeriesAdapter._load_cache_npz_arrays"]}
{"id": "C56", "title": "Lazy loading is thread safe", "statement": "However many threads index a frame-cache series at once, each sees the completely loaded frames, the file is loaded at most once, and no thread blocks forever, even if a load attempt raises.", "quantifier": "every number of threads, every interleaving, every pattern of failing loads", "why_tests_cant": "data races and lost wake-ups appear only under rare schedules", "anchors": ["hexrd/core/imageseries/load/framecache.py:FrameCacheImageSeriesAdapter._load_framelist_if_needed"]}
{"id": "C57", "title": "Shared frame lists are never stale", "statement": "Opening a frame-cache file returns the file's current content although loaded frame lists are shared through a small cache.", "quantifier": "every history of rewriting and loading any number of files", "why_tests_cant": "depends on the order of writes and loads and on file time stamps", "anchors": ["hexrd/core/imageseries/load/framecache.py:_load_framecache_npz", "hexrd/core/imageseries/load/framecache.py:_load_framecache_fch5", "hexrd/core/imageseries/load/framecache.py:_stat_identity"]}
{"id": "C58", "title": "Iteration yields every frame", "statement": "Iterating over an image series yields frames 0..n-1 in order, each exactly once, and an error while reading a frame is raised to the caller.", "quantifier": "every series length, frame accessor and failing frame", "why_tests_cant": "an error inside a frame read may be confused with the end of the series for particular frames only", "anchors": ["hexrd/core/imageseries/imageseriesiter.py:ImageSeriesIterator.__next__"]}
{"id": "C59", "title": "Concurrent reads of one raw file", "statement": "Threads that read frames of one raw image series at the same time each get the bytes of their own frame, whatever the interleaving, and no thread blocks forever.", "quantifier": "every number of threads, every set of keys, every interleaving", "why_tests_cant": "the shared seek position is a race that appears only under particular schedules", "anchors": ["hexrd/core/imageseries/load/rawimage.py:RawImageSeriesAdapter.__getitem__"]}
{"id": "C60", "title": "Saving and reopening a configuration", "statement": "Opening a configuration, saving it and opening the saved file gives the same sections.", "quantifier": "every multi-document configuration", "why_tests_cant": "sections interact through inheritance on reload; tests use one document", "anchors": ["hexrd/core/config/__init__.py:save", "hexrd/core/config/__init__.py:open"]}
{"id": "C61", "title": "Storing a dictionary in HDF5 always finishes", "statement": "Writing any Python dictionary of dictionaries to HDF5 terminates, also when dictionaries are shared or contain themselves.", "quantifier": "every finite graph of dictionary objects", "why_tests_cant": "termination for all object graphs, including cyclic ones", "anchors": ["hexrd/core/utils/hdf5.py:unwrap_dict_to_h5"]}
{"id": "C62", "title": "Tolerance grids cover the window evenly", "statement": "make_tolerance_grid returns equally spaced values centred on zero that span the (possibly enlarged) window exactly, with spacing no larger than the bin width divided by the number of subdivisions; the one-sided form is symmetric with spacing equal to the bin width and covers the window up to one bin.", "quantifier": "every positive bin and window width and every number of subdivisions", "why_tests_cant": "rounding of the number of divisions depends on the ratio of real-valued widths", "anchors": ["hexrd/core/gridutil.py:make_tolerance_grid"]}
{"id": "C63", "title": "Calibration picks survive being saved and restored", "statement": "Reading a calibrator's picks as a dictionary of hkl strings and assigning that dictionary back loses no pick: every reflection keeps its picks in order.", "quantifier": "every list of picks, every integer hkl, any number of picks per reflection", "why_tests_cant": "collisions appear only when two picks share a reflection", "anchors": ["hexrd/core/fitting/calibration/powder.py:PowderCalibrator.calibration_picks", "hexrd/core/fitting/calibration/abstract_grain.py:AbstractGrainCalibrator.calibration_picks"]}
{"id": "C64", "title": "Assigning a calibrator's two-theta tolerance takes effect", "statement": "After assigning a two-theta tolerance to a powder calibrator, reading it gives the assigned value.", "quantifier": "every previous width and every assigned value", "why_tests_cant": "a setter that ignores its argument passes every test that assigns the current value", "anchors": ["hexrd/core/fitting/calibration/powder.py:PowderCalibrator.tth_tol"]}
{"id": "C65", "title": "The number of reflections is up to date", "statement": "PlaneData.nHKLs equals the number of reflections that getHKLs lists, after any sequence of assignments, and getSymHKLs never fails.", "quantifier": "every history of exclusions, maximum two-theta and lattice changes", "why_tests_cant": "depends on the order of assignments", "anchors": ["hexrd/core/material/crystallography.py:PlaneData.getSymHKLs", "hexrd/core/material/crystallography.py:PlaneData.tThMax", "hexrd/core/material/crystallography.py:PlaneData.exclusions"]}
{"id": "C66", "title": "Lookup by hkl identifier respects exclusions", "statement": "getHKLs(id) returns the reflection with that identifier if it is not excluded and raises RuntimeError if it is.", "quantifier": "every order of reflections, every exclusion, every identifier", "why_tests_cant": "depends on the sort permutation", "anchors": ["hexrd/core/material/crystallography.py:PlaneData.getHKLs", "hexrd/core/material/crystallography.py:PlaneData._getHKLID"]}
{"id": "C67", "title": "Merged two-theta ranges are the union of the ranges", "statement": "getMergedRanges puts every listed reflection in exactly one group, groups are the maximal runs of overlapping neighbours, and the merged ranges cover exactly the points covered by the individual ranges.", "quantifier": "every number of reflections and every pair of monotone range ends", "why_tests_cant": "all overlap patterns", "anchors": ["hexrd/core/material/crystallography.py:PlaneData.getMergedRanges"]}
{"id": "C68", "title": "Hexagonal direction indices convert without changing the direction", "statement": "Converting a three-index hexagonal direction to Miller-Bravais indices and back gives a positive multiple of the direction; the redundant third index is minus the sum of the first two.", "quantifier": "every direction and every number of directions", "why_tests_cant": "depends on signs of remainders and on the number of rows", "anchors": ["hexrd/core/material/crystallography.py:convert_Miller_direction_to_MillerBravias", "hexrd/core/material/crystallography.py:convert_MillerBravias_direction_to_Miller"]}
{"id": "C69", "title": "Skew matrices, axial vectors and symmetric parts", "statement": "skewMatrixOfVector(w) times x is w cross x and vectorOfSkewMatrix inverts it; symm and skew give the unique symmetric and skew parts of a matrix and leave their argument alone; nrmlProjOfVecMV gives n.A.n; the inverse stretch returned by ale3dStrainOutToV is the inverse of the stretch.", "quantifier": "every vector, matrix and strain output", "why_tests_cant": "identities over the reals", "anchors": ["hexrd/core/matrixutil.py:skewMatrixOfVector", "hexrd/core/matrixutil.py:vectorOfSkewMatrix", "hexrd/core/matrixutil.py:symm", "hexrd/core/matrixutil.py:skew", "hexrd/core/matrixutil.py:nrmlProjOfVecMV", "hexrd/core/matrixutil.py:ale3dStrainOutToV"]}
{"id": "C70", "title": "solve_wahba returns the best-fitting rotation", "statement": "solve_wahba returns a proper rotation, and no other rotation maps the first vectors closer (in weighted least squares) to the second.", "quantifier": "every number of vectors, every vectors and weights, also mirror-image and coplanar data", "why_tests_cant": "optimality is a statement about all rotations", "anchors": ["hexrd/core/matrixutil.py:solve_wahba"]}
{"id": "C71", "title": "Block-diagonal and dyadic matrices", "statement": "blockSparseOfMatArray puts every block on the diagonal and zero elsewhere; rankOneMatrix gives every product of entries.", "quantifier": "every number and shape of blocks, every vectors", "why_tests_cant": "index arithmetic for all sizes", "anchors": ["hexrd/core/matrixutil.py:blockSparseOfMatArray", "hexrd/core/matrixutil.py:rankOneMatrix"]}
{"id": "C72", "title": "toFundamentalRegion picks the equivalent orientation closest to the reference", "statement": "toFundamentalRegion returns a symmetry-equivalent unit quaternion with non-negative scalar part and the least rotation angle among all equivalents; equivalent inputs get the same angle.", "quantifier": "every unit quaternion, every symmetry group", "why_tests_cant": "all orientations", "anchors": ["hexrd/core/rotations.py:toFundamentalRegion"]}
{"id": "C73", "title": "Changing the units of Euler angles does not change the rotation", "statement": "Assigning units to a RotMatEuler object rescales its angles so that its rotation matrix stays the same, for every accepted unit name.", "quantifier": "every angles, every accepted spelling of the unit", "why_tests_cant": "the spelling and the angles interact", "anchors": ["hexrd/core/rotations.py:RotMatEuler.units", "hexrd/core/rotations.py:RotMatEuler.rmat", "hexrd/core/rotations.py:RotMatEuler.__init__"]}
{"id": "C74", "title": "Constrained detectors end where the final parameters say", "statement": "With relative constraints, the detector poses after a fit are determined by the initial poses and the final parameter values, whatever values the optimiser tried in between.", "quantifier": "every sequence of parameter values, every panels and groups, every rotation centre", "why_tests_cant": "depends on the history of evaluations of an optimiser", "anchors": ["hexrd/core/fitting/calibration/lmfit_param_handling.py:_update_constrained_detector_parameters", "hexrd/core/fitting/calibration/lmfit_param_handling.py:update_group_constrained_detector_parameters", "hexrd/core/fitting/calibration/relative_constraints.py:RelativeConstraintsGroup.center_of_rotation"]}
{"id": "C75", "title": "Angles give the right diffraction and G vectors", "statement": "angles_to_dvec returns, in the crystal frame, the unit direction with the given two theta and azimuth; angles_to_gvec returns the unit vector that makes the angle of the Bragg condition with the beam and mirrors the beam into that direction.", "quantifier": "every angles, tilt, crystal orientation, beam and eta reference vectors", "why_tests_cant": "an identity over the reals in nine variables", "anchors": ["hexrd/core/transforms/xfcapi.py:angles_to_gvec", "hexrd/core/transforms/xfcapi.py:angles_to_dvec", "hexrd/core/transforms/cpp_sublibrary/src/transforms.cpp:anglesToGvec"]}
{"id": "C76", "title": "Angles and detector coordinates of a flat panel convert both ways", "statement": "angles_to_cart returns the point where the ray with the given angles meets the panel, cart_to_angles returns the angles of the ray to a point, and each undoes the other.", "quantifier": "every panel pose, sample rotation, crystal position, angles and point", "why_tests_cant": "every geometry; agreement at tested geometries says nothing about signs elsewhere", "anchors": ["hexrd/core/instrument/planar_detector.py:PlanarDetector.angles_to_cart", "hexrd/core/instrument/planar_detector.py:PlanarDetector.cart_to_angles", "hexrd/core/instrument/planar_detector.py:PlanarDetector.cart_to_dvecs"]}
{"id": "C77", "title": "beam_position is where the beam meets the panel", "statement": "beam_position returns the panel coordinates of the point where the direct beam through the origin meets the panel, and nothing when it does not.", "quantifier": "every panel pose and beam vector", "why_tests_cant": "all geometries", "anchors": ["hexrd/core/instrument/planar_detector.py:PlanarDetector.beam_position"]}
{"id": "C78", "title": "makeGVector returns unit plane normals", "statement": "Each column of the result of makeGVector is the unit vector along the reciprocal lattice vector of its hkl.", "quantifier": "every B matrix and list of hkls", "why_tests_cant": "depends on the number of reflections", "anchors": ["hexrd/core/transforms/xfcapi.py:makeGVector"]}
{"id": "C79", "title": "Vectors are rotated about the given axes", "statement": "rotate_vecs_about_axis rotates each vector by its angle about its axis, which need not have unit length; a single angle or axis applies to all.", "quantifier": "every number of vectors, all angles and non-zero axes", "why_tests_cant": "all broadcasting combinations", "anchors": ["hexrd/core/transforms/xfcapi.py:rotate_vecs_about_axis"]}
{"id": "C80", "title": "quat_distance is the smallest misorientation", "statement": "quat_distance returns the smallest angle of the misorientation over the symmetry-equivalent forms of the second quaternion.", "quantifier": "every pair of unit quaternions and every list of symmetry quaternions", "why_tests_cant": "a minimum over all equivalents", "anchors": ["hexrd/core/transforms/xfcapi.py:quat_distance"]}
{"id": "C81", "title": "Lattice planes have the right normals, spacings and Bragg angles", "statement": "latticePlanes returns for every hkl the unit normal and the spacing of that family of lattice planes, the two-theta that satisfies Bragg's law (NaN when the wavelength is too long), and with a strain magnitude the two-theta of the stretched and compressed spacing, which bracket it.", "quantifier": "every lattice type and parameters, every hkl, wavelength and strain", "why_tests_cant": "identities over the reals and range limits of the arc sine", "anchors": ["hexrd/core/material/crystallography.py:latticePlanes"]}
{"id": "C82", "title": "A unit cell's matrices describe the same cell as latticeVectors", "statement": "The metric tensors, volume and structure matrices of a unitcell object are those of the vectors that latticeVectors builds from the same six parameters.", "quantifier": "every possible cell", "why_tests_cant": "two independent implementations agree for all real parameters", "anchors": ["hexrd/core/material/unitcell.py:unitcell.calcmatrices", "hexrd/core/material/crystallography.py:latticeVectors"]}
{"id": "C83", "title": "Changing the space of a vector does not change the vector", "statement": "TransSpace gives the components of the same vector in direct, reciprocal or Cartesian space; CalcDot, CalcLength, NormVec, CalcAngle and CalcCross (with the volume factor) give the product, length, direction, angle and cross product of the vectors whatever the space.", "quantifier": "every possible cell, pair of vectors and choice of spaces", "why_tests_cant": "all cells and vectors; tolerances act only near special values", "anchors": ["hexrd/core/material/unitcell.py:unitcell.TransSpace", "hexrd/core/material/unitcell.py:unitcell.CalcDot", "hexrd/core/material/unitcell.py:unitcell.CalcLength", "hexrd/core/material/unitcell.py:unitcell.NormVec", "hexrd/core/material/unitcell.py:unitcell.CalcAngle", "hexrd/core/material/unitcell.py:unitcell.CalcCross"]}
{"id": "C84", "title": "Rhombohedral parameters describe the obverse cell", "statement": "rhombohedralParametersFromHexagonal returns the edge and angle of the rhombohedral cell inside the hexagonal cell, which has a third of its volume; convert_Miller_direction_to_cartesian gives the Cartesian direction of [uv.w].", "quantifier": "every positive a and c, every direction", "why_tests_cant": "identities over the reals", "anchors": ["hexrd/core/material/crystallography.py:rhombohedralParametersFromHexagonal", "hexrd/core/material/crystallography.py:convert_Miller_direction_to_cartesian"]}
{"id": "C85", "title": "Every space group gets its symmetry operations", "statement": "For each of the 230 space groups and either origin setting, GenerateSGSym returns a complete space group: it contains the identity first, is closed under composition and inverse up to lattice translations, has no operation twice, consists of products of the tabulated generators, has exactly the pure translations of the centring letter, and the screw sense of its symbol. The second setting is the same group from another origin, a centre of inversion whenever one exists. Other numbers are rejected.", "quantifier": "all space-group numbers and settings", "why_tests_cant": "group closure is a statement about all products", "anchors": ["hexrd/core/material/symmetry.py:GenerateSGSym", "hexrd/core/material/symmetry.py:MakeGenerators", "hexrd/core/constants.py:SYM_GL"]}
{"id": "C86", "title": "Point group, Laue group and flags of a space group", "statement": "The point group consists of the rotation parts of the operations, is a group of the crystal class named for the space group, the Laue group adds the inversion, and the centrosymmetric and symmorphic flags are right.", "quantifier": "all space groups and settings", "why_tests_cant": "every group has to be right, tests look at a few", "anchors": ["hexrd/core/material/symmetry.py:GeneratePGSym", "hexrd/core/material/symmetry.py:GeneratePGSym_Laue", "hexrd/core/material/unitcell.py:unitcell.GetPgLg", "hexrd/core/material/spacegroup.py:_pgDict"]}
{"id": "C87", "title": "Point groups named by Schoenflies symbol are complete", "statement": "GeneratePGSYM returns a group of the named crystal class for each of the 32 symbols.", "quantifier": "all 32 symbols", "why_tests_cant": "closure under all products", "anchors": ["hexrd/core/material/symmetry.py:GeneratePGSYM"]}
{"id": "C88", "title": "Exactly the systematically absent reflections are removed", "statement": "Allowed_HKLs keeps a reflection if and only if no symmetry operation of the space group leaves it unchanged while shifting its phase.", "quantifier": "all space groups, both settings, all hkl in Z^3 and all lists", "why_tests_cant": "infinitely many reflections", "anchors": ["hexrd/core/material/spacegroup.py:Allowed_HKLs", "hexrd/core/material/spacegroup.py:omitscrewaxisabsences", "hexrd/core/material/spacegroup.py:omitglideplaneabsences", "hexrd/core/constants.py:SYS_AB"]}
{"id": "C89", "title": "Removed reflections are those that no atom can produce", "statement": "A reflection is removed by Allowed_HKLs if and only if the structure factor of the images of every point of the cell vanishes for it, so atoms anywhere with any scattering factors give it zero intensity.", "quantifier": "all space groups, all hkl, all atom positions and scattering factors", "why_tests_cant": "a statement about all real positions", "anchors": ["hexrd/core/material/spacegroup.py:Allowed_HKLs", "hexrd/core/material/symmetry.py:GenerateSGSym"]}
{"id": "C90", "title": "Symmetry-equivalent reflections are the star of a reflection", "statement": "For a unit cell whose lattice parameters fit its space group, the reciprocal-space operations hexrd derives by rounding act on plane indices exactly as the direct-space operations act on planes; CalcStar lists every symmetry-equivalent reflection once (with opposite ones if the Laue group is asked for) and nothing else, all with the same plane spacing; the number listed times the number of operations that leave the reflection alone is the order of the group.", "quantifier": "every space group, cell, reflection and setting, after any changes of dmin", "why_tests_cant": "rounding of a product of real matrices must be right for every cell", "anchors": ["hexrd/core/material/unitcell.py:unitcell.GenerateRecipPGSym", "hexrd/core/material/unitcell.py:unitcell.CalcStar", "hexrd/core/material/unitcell.py:_calcstar"]}
{"id": "C91", "title": "The list of reflections is complete and has no duplicates", "statement": "getHKLs(dmin) returns, sorted by plane spacing, exactly one member of each Laue class of non-extinct reflections with spacing at least dmin, the one with the largest sum of indices; it works for every positive dmin.", "quantifier": "every space group, cell, dmin and history of dmin changes", "why_tests_cant": "completeness over infinitely many reflections and all cell shapes", "anchors": ["hexrd/core/material/unitcell.py:unitcell.getHKLs", "hexrd/core/material/unitcell.py:unitcell.ChooseSymmetric", "hexrd/core/material/unitcell.py:unitcell.SortHKL", "hexrd/core/material/unitcell.py:unitcell.CalcMaxGIndex", "hexrd/core/material/unitcell.py:unitcell.dmin"]}
{"id": "C92", "title": "Pixel and cartesian coordinates of a panel agree", "statement": "pixelToCart and cartToPixel undo each other; integer pixel coordinates are the centres of the pixels; with pixels=True the pixel returned is the one the point lies in (one it touches, for points on a pixel border), and exists for every point of the open sensor.", "quantifier": "every panel shape and pixel size, every point", "why_tests_cant": "all positions, including the borders where rounding acts", "anchors": ["hexrd/core/instrument/detector.py:Detector.cartToPixel", "hexrd/core/instrument/detector.py:Detector.pixelToCart"]}
{"id": "C93", "title": "Clipping keeps exactly the points on the panel", "statement": "clip_to_panel returns, in order, the points on the sensor that the panel buffer does not exclude, and a mask that says which: with two borders those at least that far from the edges, with a mask those in a pixel marked True. A stored mask is cut by the region of interest. The mask made from two borders accepts the same pixels.", "quantifier": "every list of points, panel and buffer", "why_tests_cant": "every point, in particular on edges and pixel borders", "anchors": ["hexrd/core/instrument/detector.py:Detector.clip_to_panel", "hexrd/core/instrument/detector.py:Detector.panel_buffer", "hexrd/core/instrument/detector.py:Detector.roi", "hexrd/core/utils/panel_buffer.py:panel_buffer_as_2d_array", "hexrd/core/utils/panel_buffer.py:panel_buffer_from_str"]}
{"id": "C94", "title": "Bilinear interpolation blends the four surrounding pixels", "statement": "interpolate_bilinear gives for each accepted point the bilinear blend of the four pixels around it, the image being continued by its border pixels, and the fill value for the others; so it reproduces pixel values at pixel centres, never leaves the range of the image and is exact for images that vary linearly.", "quantifier": "every panel, image and list of points", "why_tests_cant": "every position; the cell is found by rounding in a different way from the weights", "anchors": ["hexrd/core/instrument/detector.py:Detector.interpolate_bilinear", "hexrd/core/instrument/detector.py:Detector._generate_bilinear_interp_dict", "hexrd/core/instrument/detector.py:_interpolate_bilinear_in_place"]}
{"id": "C95", "title": "Nearest interpolation gives the pixel a point is in", "statement": "interpolate_nearest gives for each accepted point the value of the pixel that contains it.", "quantifier": "every panel, image and list of points", "why_tests_cant": "every position", "anchors": ["hexrd/core/instrument/detector.py:Detector.interpolate_nearest"]}
{"id": "C96", "title": "A bent panel is a rolled-up sheet", "statement": "The position of the point (x, y) of a cylindrical detector lies on the tube of the given radius, at height y and at arc length x from the line where the tube touches the flat panel: the sheet is rolled without stretching and covers the tube once. Sheet coordinates of a position on the tube are recovered exactly, and the pixel normals are unit vectors away from the axis.", "quantifier": "every panel pose, radius and point, any sample position", "why_tests_cant": "a geometric identity over the reals; the inverse has to take the right branch everywhere", "anchors": ["hexrd/core/instrument/cylindrical_detector.py:CylindricalDetector.cart_to_dvecs", "hexrd/core/instrument/cylindrical_detector.py:CylindricalDetector.local_normal", "hexrd/hed/xrdutil/utils.py:_warp_to_cylinder", "hexrd/hed/xrdutil/utils.py:_dewarp_from_cylinder"]}
{"id": "C97", "title": "Angles and positions on a bent panel correspond", "statement": "cart_to_angles gives the scattering angles of the direction from the sample to the point; angles_to_cart gives the point of the panel that the ray with these angles meets, and NaN if it meets none; the two undo each other; beam_position is where the beam meets the panel.", "quantifier": "every panel pose, radius, sample position and orientation, every list of angles", "why_tests_cant": "all rays, including those that leave the tube twice or miss the panel", "anchors": ["hexrd/core/instrument/cylindrical_detector.py:CylindricalDetector.cart_to_angles", "hexrd/core/instrument/cylindrical_detector.py:CylindricalDetector.angles_to_cart", "hexrd/core/instrument/cylindrical_detector.py:CylindricalDetector.beam_position", "hexrd/core/instrument/cylindrical_detector.py:CylindricalDetector.pixel_angles", "hexrd/hed/xrdutil/utils.py:_project_on_detector_cylinder", "hexrd/hed/xrdutil/utils.py:_unitvec_to_cylinder", "hexrd/hed/xrdutil/utils.py:_clip_to_cylindrical_detector", "hexrd/hedm/xrdutil/utils.py:_dvec_to_angs"]}
{"id": "C98", "title": "An old module name and its new name are one module", "statement": "Importing an old module name gives the very module object of its new name, in whatever order and however often names were imported before; no import loses, rebinds or changes anything already imported; the names merged into the module come from the other new modules of that old name, in order, and never replace existing ones; among several new files the one in core is chosen, otherwise the first.", "quantifier": "every table, file tree, sequence of imports and name", "why_tests_cant": "all import orders", "anchors": ["hexrd/module_map.py:ModuleAliasImporter", "hexrd/module_map.py:ModuleAliasImporter.load_module", "hexrd/module_map.py:module_map"]}
{"id": "C99", "title": "Every old module name still works", "statement": "Every Python module named in hexrd/file_table.tsv can be imported under its old name, whatever was imported before, and importing an old name does not change how other code behaves.", "quantifier": "all 148 old names, all import histories and all contents of the modules", "why_tests_cant": "all import orders and histories", "anchors": ["hexrd/module_map.py:ModuleAliasImporter", "hexrd/file_table.tsv", "hexrd/module_map.py:path_to_module"]}
