U="hexrd/core/utils/"; I="hexrd/core/imageseries/"; K="hexrd/core/"
P("C01","Task distribution is an exact, even, contiguous partition",
  "distribute_tasks(n, w) with w>=1 returns [start,stop) ranges that are contiguous from 0 to n, non-empty, at most w many, cover each task index exactly once, and whose sizes differ by at most one; w=0 raises ZeroDivisionError.",
  "every number of tasks n>=0 and every worker count w",
  "a test samples (n,w) pairs; the partition must be exact for every pair or frames are silently lost or written twice",
  [U+"concurrent.py:distribute_tasks"])
P("C02","parallelise_function returns results in input order for every schedule",
  "Whatever interleaving of producer, consumer and worker processes happens, if parallelise_function returns, then result i is func(var[i]) (with the keyword arguments) for every i; results never depend on worker count or timing.",
  "every list of inputs, every number of processes, every schedule of queue operations",
  "schedules are unbounded and nondeterministic",
  [U+"multiprocess_generic.py:GenericMultiprocessing.parallelise_function", U+"multiprocess_generic.py:GenericMultiprocessing._func_queue"])
P("C03","Memoised functions return what the function would return, with an LRU-bounded cache",
  "For every history of calls and cache resizes, a call to a memoize-wrapped deterministic function returns the value of the function on the arguments that first produced the same cache key; the cache never exceeds maxsize entries, holds at most one value per key, and evicts the least recently used key first. Exceptions are not cached.",
  "every sequence of calls / set_cache_maxsize operations and every maxsize",
  "cache bugs depend on call history",
  [U+"decorators.py:memoize", U+"decorators.py:_make_hashable"])
P("C04","Memoise keys separate different argument lists",
  "Two calls with arguments of different meaning (different array contents/shape/dtype, list vs tuple vs dict, positional vs keyword) must not share a cache entry.",
  "every pair of argument lists",
  "collisions lie in unsampled pairs",
  [U+"decorators.py:_make_hashable", U+"decorators.py:memoize"])
P("C05","Chunk stops end at the last item and are strictly increasing",
  "For 1<=k<=n the chunk boundaries used by the *_iter statistics number exactly k, are strictly increasing, start >=0, end at n-1, and chunk sizes differ by at most one; k>n raises ValueError.",
  "every n and k",
  "boundary arithmetic for every pair",
  [I+"stats.py:_chunk_stops"])
P("C06","Chunked statistics equal their one-shot versions",
  "For each of max, min, sum, average the *_iter generator with k chunks yields exactly k images and its last image equals the one-shot function on the same frames; for percentile/median the last yielded image equals the one-shot result for every row chunking, with or without the frame buffer of any size.",
  "every non-empty frame sequence, every frame limit, every 1<=k<=n",
  "must hold for all chunkings of all sequences",
  [I+"stats.py:max_iter", I+"stats.py:min_iter", I+"stats.py:sum_iter", I+"stats.py:average_iter", I+"stats.py:percentile_iter", I+"stats.py:_toarray"])
P("C07","Images yielded by chunked statistics are stable",
  "An image handed to the consumer by a statistics iterator is not changed by later iterations of the same iterator.",
  "every frame sequence and chunk count, every point in the iteration",
  "an aliasing fault shows only for particular chunkings and only if the consumer keeps the image",
  [I+"stats.py:sum_iter", I+"stats.py:average_iter"])
P("C08","Omega wedges partition the frames",
  "For valid omega metadata the wedges cover every frame exactly once, are contiguous, have uniform step within tolerance and are increasing; the wedge number and frame index of omega arrays are consistent; metadata that is not increasing is rejected.",
  "every omega array",
  "every metadata array",
  [I+"omega.py:OmegaImageSeries._make_wedges"])
P("C09","omega_to_frame finds the frame that contains the angle",
  "For a series with omega metadata, omega_to_frame(w) returns (frame, wedge) such that w is congruent mod 360 to an angle inside that wedge and inside that frame's [min,max) interval, the frame being a member of the wedge; it returns (-1,-1) exactly when no wedge contains the angle modulo 360.",
  "every omega metadata with uniform wedges and every real angle",
  "angles and wedge configurations are unbounded; wrap-around cases",
  [I+"omega.py:OmegaImageSeries.omega_to_frame"])
P("C10","omegarange_to_frames returns exactly the frames meeting the range",
  "For a range inside one wedge, omegarange_to_frames returns the consecutive frames from the one containing the lower end to the one containing the upper end (inclusive); with a full-circle wedge it wraps. In particular a range inside a single frame returns that frame.",
  "every wedge and every angle pair",
  "boundary behaviour for all ranges",
  [I+"omega.py:OmegaImageSeries.omegarange_to_frames"])
P("C11","OmegaWedges generates one omega interval per frame",
  "After any sequence of addwedge/delwedge operations, omegas has exactly nframes rows when the wedge frame counts add up (else an error is raised), consecutive frames in a wedge share endpoints, and each wedge spans exactly [ostart, ostop].",
  "every operation sequence on wedges",
  "histories of edits are unbounded",
  [I+"omega.py:OmegaWedges.omegas", I+"omega.py:OmegaWedges.addwedge", I+"omega.py:OmegaWedges.delwedge"])
P("C12","Processed series: frame_list reindexes frames and metadata consistently",
  "A ProcessedImageSeries with a frame_list has length len(frame_list), frame i is the processed base frame frame_list[i], and omega metadata row i belongs to that same base frame; without frame_list it is the base series in order. The base series' metadata is never changed.",
  "every base series, op list and frame list",
  "index composition for all lists",
  [I+"process.py:ProcessedImageSeries"])
P("C13","Flip operations form the expected symmetry group",
  "The flip codes implement the dihedral group of the square on images of any shape: each code maps pixels bijectively, v/h/t/r180 are involutions, r90 four times is the identity, r270 inverts r90, r180 = v after h, t relates r90 to flips; synonyms agree; unknown codes do nothing.",
  "every image of every shape and every code sequence",
  "all shapes and contents",
  [I+"process.py:ProcessedImageSeries._flip"])
P("C14","Leading-rectangle optimisation does not change the result",
  "Reading a region first through get_region gives the same frame as applying the rectangle operation to the whole image, for every following operation list and trailing index.",
  "every image, region, op list",
  "equivalence of two code paths for all inputs",
  [I+"process.py:ProcessedImageSeries._process_frame", I+"process.py:ProcessedImageSeries._rectangle_optimized", I+"process.py:ProcessedImageSeries._rectangle"])
P("C15","Dark subtraction clamps at zero",
  "Dark subtraction yields max(img - dark, 0) pixelwise for every pixel value.",
  "every image and dark",
  "holds only if the pixel type does not wrap; all values",
  [I+"process.py:ProcessedImageSeries._subtract_dark"])
P("C16","Sparse frame extraction is lossless above threshold",
  "Extracting (row,col,value) triplets above a threshold and rebuilding the frame gives the original image with every pixel <= threshold replaced by 0, for every image whose shape fits the index type.",
  "every image, threshold, buffer size",
  "all images; index width",
  [K+"matrixutil.py:extract_ijv", I+"save.py:WriteFrameCache", I+"load/framecache.py:FrameCacheImageSeriesAdapter"])
P("C17","Parallel fch5 frame-cache writing is schedule independent",
  "For every interleaving of the writer threads, every frame read back from the resulting file equals the thresholded source frame; frames occupy disjoint ranges and the file size is the total number of stored pixels.",
  "every series, thread count and interleaving of the thread steps",
  "interleavings are unbounded",
  [I+"save.py:WriteFrameCache._write_frames_fch5", I+"load/framecache.py:FrameCacheImageSeriesAdapter"])
P("C18","npz frame-cache writing is schedule independent",
  "For every interleaving of writer threads sharing the output dictionary, each frame read back equals the thresholded source frame; buffers are never shared by two threads at the same time.",
  "every series, thread count, interleaving",
  "interleavings are unbounded",
  [I+"save.py:WriteFrameCache._write_frames_npz", I+"load/framecache.py"])
P("C19","Multi-file image series address every frame exactly once",
  "The map from series index to (file, frame) enumerates, in order, the non-empty frames of each file (after skipping the leading empty frames and limiting per file and in total); every key in [-n,n) is mapped as Python list indexing would, every other key raises LookupError.",
  "every list of files with frame counts, empty counts, limits and every integer key",
  "index arithmetic for all configurations",
  [I+"load/imagefiles.py:ImageFilesImageSeriesAdapter._file_and_frame", I+"load/imagefiles.py:FileInfo"])
P("C20","Raw image files: frame count and offsets tile the file exactly",
  "A raw file is accepted iff it consists of the header and a whole number of frames; frame i is read from bytes [skip+i*framesize, skip+(i+1)*framesize), frames are disjoint and cover the file after the header.",
  "every file size, frame shape, pixel size, header size",
  "arithmetic for all sizes",
  [I+"load/rawimage.py:RawImageSeriesAdapter"])
P("C21","Config.set followed by get returns the value; other keys are untouched",
  "After cfg.set(key, v), cfg.get(key) returns v and cfg.get of every unrelated key is unchanged; get of a missing key returns the default or raises.",
  "every nested configuration and every colon-separated key",
  "all nesting shapes including missing and empty blocks",
  [K+"config/config.py:Config.get", K+"config/config.py:Config.set"])
P("C22","Section merging keeps overriding values and inherits the rest",
  "Opening a multi-document configuration gives sections where each key has the section's own value if it is given and not null, otherwise the inherited one, recursively for nested blocks; no key of either document is lost.",
  "every sequence of nested documents",
  "all nested shapes",
  [K+"config/utils.py:merge_dicts", K+"config/__init__.py:open"])
P("C23","The configured process count is usable",
  "For every multiprocessing setting and every CPU count n>=1 the resulting number of processes lies in [1, n] (invalid settings fall back with a warning).",
  "every setting and CPU count",
  "all settings x machines",
  [K+"config/root.py:RootConfig.multiprocessing"])
P("C24","HDF5 dictionary storage round-trips",
  "Reading a dictionary back from HDF5 after storing it yields the same nested dictionary except that null entries are dropped and one-element arrays become scalars.",
  "every nested dictionary",
  "all nested shapes",
  [U+"hdf5.py:unwrap_dict_to_h5", U+"hdf5.py:unwrap_h5_to_dict"])
P("C25","Saving does not change the caller's data",
  "Storing a metadata dictionary to HDF5 leaves the caller's dictionary unchanged.",
  "every nested dictionary",
  "effect visible only on nested inputs after the call",
  [U+"hdf5.py:unwrap_dict_to_h5", I+"save.py:WriteFrameCache._write_frames_fch5"])
P("C26","Polygon clipping stays inside the clip polygon",
  "Every vertex of the Sutherland-Hodgman result lies in the clip polygon's half-planes and in the convex hull of the subject; for a convex counter-clockwise subject the result is convex and covers exactly the intersection of subject and clip region; clipping a polygon already inside returns it.",
  "every subject polygon and convex clip polygon",
  "all polygons",
  [K+"gridutil.py:sutherlandHodgman", K+"gridutil.py:isinside", K+"gridutil.py:computeIntersection"])
P("C27","Polygon area is the exact area",
  "computeArea of a simple polygon equals half the absolute shoelace sum, is invariant under translation and cyclic relabelling; compute_areas agrees with it for every cell.",
  "every polygon",
  "all coordinates",
  [K+"gridutil.py:computeArea", K+"gridutil.py:compute_areas"])
P("C28","Grid connectivity enumerates each cell once with valid corners",
  "cellConnectivity(m,n,p,origin) has m*n*p rows of 4 (or 8) node numbers within range, cell (i,j) lists its own corners, orientation depends only on origin, distinct cells have distinct rows.",
  "every m,n,p",
  "all sizes",
  [K+"gridutil.py:cellConnectivity", K+"gridutil.py:_fill_connectivity"])
P("C29","cellIndices returns the cell containing the point",
  "For increasing or decreasing uniform edges and a point strictly inside the grid, cellIndices returns the unique cell index whose interval contains the point.",
  "every uniform grid and point",
  "all coordinates",
  [K+"gridutil.py:cellIndices"])
P("C30","Duplicate-vector search gives a tolerance-separated representative set",
  "findDuplicateVectors returns representatives that are pairwise at least tol apart, and every vector not kept is within tol of an earlier vector; uid and eqv together list every index.",
  "every set of vectors and tolerance",
  "all sets",
  [K+"matrixutil.py:findDuplicateVectors", K+"matrixutil.py:_findduplicatevectors"])
P("C31","Symmetric-tensor vectorisations are inverse and norm preserving",
  "symmToVecMV/vecMVToSymm, strainTenToVec/strainVecToTen, stressTenToVec/stressVecToTen, symmToVecds/vecdsToSymm round-trip for every symmetric tensor (and every vector), and the Mandel forms preserve the inner product.",
  "every symmetric 3x3 tensor / 6-vector",
  "identities over all reals",
  [K+"matrixutil.py:symmToVecMV", K+"matrixutil.py:vecMVToSymm", K+"matrixutil.py:strainTenToVec", K+"matrixutil.py:vecdsToSymm"])
P("C32","Quaternion algebra: product, inverse, rotation matrices agree",
  "rotMatOfQuat of a unit quaternion is a proper rotation, q and -q give the same rotation, quatProduct composes rotations, invertQuat inverts, misorientation angle is symmetric and zero exactly for equal rotations.",
  "every unit quaternion (pair)",
  "identities over all reals",
  [K+"rotations.py:quatProduct", K+"rotations.py:invertQuat", K+"rotations.py:rotMatOfQuat", K+"rotations.py:fixQuat"])
P("C33","Quaternion conversion never loses a rotation",
  "Converting any rotation to a quaternion gives a unit quaternion representing that rotation.",
  "every rotation including half-turns",
  "measure-zero cases that random tests never hit",
  [K+"rotations.py:_scipy_rotation_to_quat", K+"rotations.py:quatOfRotMat", K+"rotations.py:quatOfExpMap"])
P("C34","Laue symmetry sets are groups of the right order",
  "For each of the 11 Laue groups quatOfLaueGroup returns the full rotation group (closed under product and inverse up to sign, no duplicates) of the tabulated order.",
  "every Laue group and every pair of elements",
  "a finite but complete check; exact arithmetic",
  [K+"rotations.py:quatOfLaueGroup"])
P("C35","mapAngle maps into the requested range and preserves the angle",
  "mapAngle returns a value inside the given range that differs from the input by a whole number of periods.",
  "every angle and range",
  "all reals, both range ends",
  [K+"rotations.py:mapAngle"])
P("C36","angularDifference is the circular distance",
  "angularDifference(a,b) is the smallest absolute difference modulo the period: non-negative, at most half a period, symmetric, zero iff congruent.",
  "every pair of angles",
  "all reals",
  [K+"rotations.py:angularDifference", K+"rotations.py:angularDifference_opt"])
P("C37","validate_angle_ranges decides membership in circular ranges",
  "An angle is accepted iff it lies (mod 2*pi, within tolerance) on the counter-clockwise (or clockwise) arc from start to stop of some range; full circles accept everything.",
  "every angle and list of ranges",
  "all reals, wrap-around",
  [K+"transforms/new_capi/validate_angle_ranges.c:validate_angle_ranges"])
P("C38","Oscillation angles satisfy the Bragg condition",
  "For every reflection for which oscill_angles_of_hkls returns finite values, both returned omegas satisfy b.(Rs(omega) g) = -sin(theta) and 2theta satisfies Bragg's law, and there is no other solution modulo 2*pi; NaN is returned exactly when no omega satisfies it.",
  "every hkl, orientation, B matrix, wavelength, strain, chi and beam vector",
  "identity over all reals plus completeness",
  [K+"transforms/new_capi/oscill_angles_of_HKLs.c:oscill_angles_of_HKLs"])
P("C39","Frame matrices are proper rotations",
  "make_sample_rmat, make_detector_rmat, make_beam_rmat (non-collinear inputs), make_binary_rmat (unit axis), make_rmat_of_expmap produce orthogonal matrices of determinant 1, make_beam_rmat maps -z to the beam direction and puts eta=0 in the x-z half-plane; collinear input raises an error.",
  "all angles / vectors",
  "identities over all reals",
  [K+"transforms/new_capi/make_sample_rmat.c", K+"transforms/new_capi/make_detector_rmat.c", K+"transforms/new_capi/make_beam_rmat.c", K+"transforms/cpp_sublibrary/src/transforms.cpp"])
P("C40","gvec_to_xy returns the point where the diffracted ray meets the detector",
  "A returned finite point lies on the diffracted ray from the crystal position (non-negative distance) and on the detector plane; the diffracted direction is the mirror image of the beam about the G vector; NaN iff the ray does not hit the plane forwards.",
  "every geometry and G vector",
  "identity over all reals",
  [K+"transforms/new_capi/gvec_to_xy.c:gvec_to_xy_vect"])
P("C41","xy_to_gvec inverts gvec_to_xy",
  "Mapping a G vector to detector coordinates and back yields the same unit G direction and its Bragg angle.",
  "every geometry and every unit G that diffracts onto the detector",
  "identity over all reals",
  [K+"transforms/new_capi/xy_to_gvec.c:xy_to_gvec", K+"transforms/new_capi/gvec_to_xy.c"])
P("C42","Distortion inverse undoes distortion",
  "For each detector distortion model apply_inverse(apply(xy)) = xy and apply(apply_inverse(xy)) = xy.",
  "every parameter set and every point",
  "all reals, branch boundaries",
  [K+"distortion/dexela_2923.py", K+"distortion/dexela_2923_quad.py", K+"distortion/ge_41rt.py", K+"transforms/cpp_sublibrary/src/inverse_distortion.cpp"])
P("C43","Direct and reciprocal lattice matrices are dual",
  "latticeVectors returns F and B with F^T B = I, vol = det F, cell lengths and angles of F equal the input parameters, for every lattice type.",
  "every admissible lattice parameter set",
  "identities over all reals",
  [K+"material/crystallography.py:latticeVectors", K+"material/crystallography.py:cosineXform"])
P("C44","PlaneData exclusions are consistent whatever the hkl ordering",
  "After setting exclusions (mask, index list or ranges, all in the current ordering), reading exclusions returns the same selection, and getHKLs/getTTh/getPlaneSpacings list exactly the non-excluded reflections.",
  "every sort permutation of reflections and every exclusion",
  "depends on non-involutive sort permutations",
  [K+"material/crystallography.py:PlaneData.exclusions", K+"material/crystallography.py:PlaneData._thisHKL"])
P("C45","Hexagonal/rhombohedral index conversions are inverse",
  "rhombohedralIndicesFromHexagonal(hexagonalIndicesFromRhombohedral(hkl)) = hkl for all integer hkl, and the converse holds exactly for obverse reflections (-H+K+L divisible by 3).",
  "every integer triple",
  "all integers",
  [K+"material/crystallography.py:hexagonalIndicesFromRhombohedral", K+"material/crystallography.py:rhombohedralIndicesFromHexagonal"])
P("C46","Units conversions are consistent",
  "Converting a value to another unit and back gives the value; addition/subtraction of quantities does not depend on the units they are expressed in; every pair of units of the same kind is convertible.",
  "every value and unit pair",
  "all pairs and reals",
  [K+"valunits.py:valWUnit.getVal", K+"valunits.py:valWUnit.__add__"])
P("C47","lmfit parameter names are unique and renaming is invertible",
  "rename_to_avoid_collision yields names distinct from the existing ones and from each other, changes nothing else, and returns a mapping from old to new names; validate_params_list accepts exactly duplicate-free lists.",
  "every list of parameters",
  "all name sets",
  [K+"fitting/calibration/lmfit_param_handling.py:rename_to_avoid_collision", K+"fitting/calibration/lmfit_param_handling.py:validate_params_list"])
P("C48","Distortion parameters return to their own slots after a fit",
  "Writing distortion parameters to the fit parameter set and reading them back gives the same list in the same order for the same detector.",
  "every number of parameters and every detector naming",
  "orders and substring matches fail only for particular sizes/names",
  [K+"fitting/calibration/lmfit_param_handling.py:update_unconstrained_instrument_parameters", K+"fitting/calibration/lmfit_param_handling.py:create_unconstrained_detector_params"])
P("C49","Group-constrained motion is rigid",
  "Applying a relative-constraint rotation and translation to a group of detectors preserves all inter-detector distances and relative orientations, and a zero change leaves every detector unchanged.",
  "every group, rotation, centre and translation",
  "identity over all reals and all group sizes",
  [K+"fitting/calibration/lmfit_param_handling.py:update_system_constrained_detector_parameters", K+"fitting/calibration/relative_constraints.py"])
P("C50","hkl strings round-trip",
  "str_to_hkl(hkl_to_str(hkl)) = hkl for every integer triple.",
  "every integer triple",
  "all integers including negatives",
  [U+"hkl.py"])
