# Design of the formal model of HEXRD/hexrd

Everything is in Coq 8.16.1, `rocq/theories`, logical name `Verif`. The code in /repo was read as text; nothing was run.

## Layout

For each area `X` there are up to four kinds of file.

* `XModel.v`: Gallina definitions mirroring the code function by function. Each definition cites the file and lines it models and says where it simplifies. No proofs here.
* `XSpec.v`: the small vocabulary the theorem statements use, independent of the model's helpers.
* `XProofs.v` and the other files of the area: lemmas.
* `XProps.v`: the property theorems, each closed by `exact`, with `Print Assumptions` beneath, and `Example`s showing the hypotheses are met by a concrete non-trivial case. Small specifications used by the statements are in the same file, or in `XSpec.v`.

`properties.jsonl` and `MANIFEST.json` are generated from `tools/props_*.py` by `tools/props.py`.

## Conventions

* Exceptions are values (`inl err`, `None`, or an explicit error constructor).
* Python ints are `Z` (or `nat` for lengths and indices). Fixed-width wrap-around is written explicitly where a property is about it.
* Floating point code is modelled over exact reals `R` (or rationals `Q`, or integers). Rounding is not modelled. A theorem over `R` says the formula is right, not that the rounded evaluation is.
* NaN is modelled as `None` where the code produces it deliberately.
* Threads: a schedule is an arbitrary list of thread choices. One step is one lock-protected section or one atomic access, as stated in the model.
* A property that the faithful model violates is recorded as a `…_refuted` theorem with a concrete witness, together with the strongest restricted version that is true.

## Plan per property

| id | modelled | proof |
|----|----------|-------|
| C01 | `distribute_tasks` loop with its mutable accumulators | induction on the loop, invariant on (assigned, remainder) |
| C02 | producer/worker/consumer transition system, bounded queue of size 1 | invariant over all schedules: each index is in exactly one place |
| C03 | memoize as a state machine over call/resize operations | refinement to the pure function; invariant by induction over operations |
| C04 | `_make_hashable` on a type of Python values | refuted by witnesses; injectivity on a stated fragment |
| C05 | `_chunk_stops` | closed form of cumsum |
| C06 | generator loops as functions producing the list of yields; row-chunked percentile with buffer | invariant on loop; final state equality |
| C07 | same loops with a heap of images (aliasing explicit) | heap invariant for `sum_iter`; witness for `average_iter` |
| C08–C11 | `omega.py` over Q/Z | induction on the frame loop |
| C12–C15 | `process.py`; images are functions with shape or lists of rows | list algebra |
| C16–C18 | `extract_ijv`, writers as thread programs over a shared file, reader | invariants over every schedule; disjointness of ranges |
| C19–C20 | `imagefiles.py`, `rawimage.py` | list/arith induction |
| C21–C25 | nested dictionaries as trees; explicit object identity for the destructive writer | structural induction |
| C26–C29 | `gridutil.py` over Q or R | induction on vertex lists; linear arithmetic |
| C30 | `_findduplicatevectors` double loop | loop invariant |
| C31 | matrix algebra over R | field/ring identities |
| C32–C36 | `rotations.py` over R; Laue groups over an exact number field | ring/nsatz; finite complete check for groups |
| C37 | C loop over R with explicit termination argument | modular arithmetic over R |
| C38–C41 | `transforms` C code over R | trigonometric identities; atan2 specification derived, not assumed |
| C42 | `distortion/*` over R | field; cubic root identity for GE; branch witnesses for Dexela |
| C43, C45 | `crystallography.py` over R / Z | field, trigonometric identities |
| C44 | PlaneData ordering arrays as permutations | permutation lemmas; refuted by a 3-cycle |
| C46 | `valunits.py` conversion table over R | table check, field |
| C47–C49 | lmfit handling: names are strings, parameters are records | list induction; matrix algebra |
| C50 | decimal printing/parsing of Z | induction on digits |

| C51–C53 | see properties.jsonl; same areas as their neighbours | induction over lists, histories and schedules |
| C54 | row and column insertion of `process.py` | list algebra |
| C55 | metadata of the npz writer and reader as association lists | list induction; reserved-key witness |
| C56, C57 | double-checked lock as a transition system; the stat-keyed file cache as a state machine | invariants over every schedule and history |
| C58, C59 | iterator protocol; raw reader threads sharing a seek position | induction; invariants over every schedule |
| C60, C61 | configuration documents as trees; HDF5 writer over a heap of dictionaries with cycles | structural induction; termination measure |
| C62 | `make_tolerance_grid` over Q | floor arithmetic |
| C63, C64 | calibration picks and tolerance setter | list induction; witnesses |
| C65–C67 | PlaneData as a state machine over assignments; merged ranges | invariants over histories; sorted-list induction |
| C68 | hexagonal index conversions over Z/Q and, for one round trip, binary64 through `SpecFloat` | number theory; computation in the kernel for witnesses only |
| C69–C71 | `matrixutil.py` over R | ring; singular values given by their defining equations (a hypothesis on the arguments of `svd`) |
| C72, C73, C80 | `rotations.py`, `quat_distance` over R | minimum over a list; angle unit algebra |
| C74 | constrained detector motion as a fold over optimiser evaluations | group action invariant |
| C75–C79 | C and C++ transforms and PlanarDetector over R | trigonometric and linear identities |
| C81–C84 | `latticePlanes`, `unitcell.calcmatrices`, `TransSpace`, ... over R | linear algebra over R |
| C85–C87 | generator strings, the 230 tables, closure loops, over exact 24ths | reflection: a boolean check, proved sound, evaluated for the whole finite table |
| C88, C89 | `Allowed_HKLs` for all hkl in Z^3; structure factors over R | conditions reduced to linear congruences proved equivalent to the operations; exponential sums |
| C90, C91 | stars and reflection lists of a unit cell | integer operations proved from real metric; orbit argument; geometry of the index box |
| C92–C95 | pixel grid, clipping and interpolation of a panel over exact rationals | a coordinate's value does not depend on which of two touching cells is used; interval arithmetic |
| C96–C97 | cylindrical detector over R | coordinates in the panel frame, quadratic equation of the ray, derivative of the sheet; `_refuted` witnesses |
| C98–C99 | import system with the alias finder as a state machine over module objects; the real table and file tree as generated data | invariant over import histories; checkers proved sound and run by the kernel on the real table; `_refuted` witnesses |
| C100–C104 | paintGrid: range normalisation, bisection, bins, dilated window, tally, thresholds, Pool.map with any completion order, over the reals with NaN as None | arcs versus sorted spans by permutation-invariant separation; split point of the bisection; reading order as a sorted list of cells; partition invariant of the tally; array invariant of the pool; `_refuted` witnesses |
| C105–C106 | `Stf*`: the constants as lists, the matrix as an array filled by assignments; symmetry stated as invariance of the elastic energy under the rotations of `quatOfLaueGroup` (area Rot); generators give the linear equations for the converse |
| C107–C108 | `Eos*`: the functions over the reals with `Rpower`; `numpy.roots` a parameter; the equation is written as a polynomial in x = (v0/v)^(1/3), existence by the intermediate value theorem, uniqueness by monotonicity; cell volumes as determinants of the cell vectors |
| C109–C111 | `Mat*`: the state machine of a Material with its unit cell and plane data; an operation gives the new state and the exception raised, if any; reflections, angles, structure factors and failures of the parts not modelled are functions in a record; invariants over histories, exclusions compared reflection by reflection through any reordering |
| C112–C114 | `Orb*`: the symmetric reflections made by rotating a reciprocal vector with the quaternions of the Laue group and removing near duplicates; each rotation is shown to act on indices as an integer matrix, distinct lattice vectors are further apart than the tolerance, so rounding and duplicate removal are exact; orbits counted by the orbit-stabiliser lemma of `Uc`; the matrices compared with those of the 230 space groups by computation; the lookup by the last holder in a list |
| C115 | `Fp*`: getFriedelPair element by element and its array arguments; the harmonic equation of `XfTrig` gives all solutions, the smaller of the two mapped ones is the least of all; the rotated normal is the unit vector with the azimuth returned |
| C116–C118 | `Fib*`: discreteFiber and distanceToFiber with the quaternions and `toFundamentalRegion` of `Rot*`, `applySym` of `Orb*`, `angles_to_gvec` of `Xf*`; the svd of nullSpace is a parameter giving a perpendicular unit vector; a rotation that keeps a unit vector is a turn about it, which gives completeness. uniqueVectors with its numbering of rows, lexsort and run removal on lists of real columns |
| C119, C120 | `Clu*`: quatAverageCluster with `misorientation`, `toFundamentalRegion` and the quaternion product of `Rot*`; Cauchy's inequality in four dimensions gives the extremum. run_cluster with sklearn's dbscan and scipy's fclusterdata as parameters that return labels; clusters as sublists, the whole as a permutation |
| C121, C122 | `Eom*`, `Eow*`: extract_polar_maps as a list of histogram writes in any interleaving of the tasks of distribute_tasks; numpy.histogram as its cumulative sum; the packing of the detectors by nansum; the row bookkeeping of GenerateEtaOmeMaps over exact rationals, with mapAngle |
| C123-C126 | `Ems*`: the choice of ids with the truth value of lists and arrays and the comparison of a list with numpy and Python integers; the archive on top of the plane data of `Plane*`; medians by insertion sort; the grid arithmetic of seeds |
| C127 | `Var*`: the loops over operations with their tolerance; coset counting (orbit-stabiliser) on lists of matrices |
| C128-C129 | `Snp*`: the border as a list, the windows of the C routine, NaNs as `None`; the SNIP passes over rows on top of it; results of workers written in any order |
| C130-C132 | `Fgr*`: rows updated in place, results as views of the table, workers with their own copies and chunks; spots as records; the two omegas of a reflection and the residuals with `None` for NaN |
| C133-C136 | `Pk*`, `Pkf*`: the peak functions over the reals with `None` for NaN, specified by height, centre and half-maximum; derivatives as `derivable_pt_lim` of one parameter at a time; guesses, bounds and residuals with the background fit and the optimiser as parameters |
| C137-C139 | `Pol*`: the grid, the mapping (on top of the panel model `Det`, with the projection as a parameter), the summation in place and the mask over rationals with `None` for NaN; specified by intervals, by `meets` and by the bilinear blend of C94; the binning by the set of rows within the range |
| C140-C142 | `Rfz*`: the zone tests branch by branch over reals, with `None` for infinity and for a missing return value; specified by the Laue groups of C57 (`smallest`: no equivalent is a smaller rotation); the cubochoric map, the loops over an arbitrary schedule and the object with its setters |
| C143-C146 | `Nf*`: the confidence as a loop over reflections with `None` for NaN, specified by pixel cells and counts; the grand loop over an arbitrary function of grain and point, with slices, broadcasting, `None` for cells not written and an arbitrary order of results; ranks and gathering; the grain map |
| C147-C150 | `Nfg*`: rationals; `arange` by its number of points, meshes as nested lists and specified by the position in the flattened array; volumes as lists of layers; the experiment as a record of the parts a scan changes, the evaluation as a parameter |
| C151-C153 | `Sim*`: real angles with undefined rows; the diffraction angles, the projection, the panel and the pixel sizes are parameters (they are modelled in `Xf*`, `Det*`); masks and boolean indexing as in numpy; a relation `gives` between rows and results states completeness, order and alignment at once |
| C154-C157 | `Hc*`: accessors over the configuration trees of `Config*`, with numbers, truth values, strings, lists, dictionaries and nulls at every key; exact characterisation by the value in effect; strings of file names; the root as a state machine with set and two accesses, histories by induction |
| C158-C160 | `Chk*`: chunks as integer rectangles with decimal labels; panels of `Det*` with a rotation and a translation over the rationals; pixel centres in the laboratory frame; dictionaries of images with names compared as strings |
| C161-C162 | `Bv*`: real trigonometry with the `atan2` of `Xf*`; wedges up to whole turns |
| C163-C168 | `Cal*`: parameters as association lists of names to value, vary flag and bounds over the reals; instruments with panels of `Rig*`, beam angles of `Bv*`, names and distortion parameters of `Names*`; scipy conversions as parameters of the sections with exactness as hypotheses |
| C169-C171 | `Wr*`: a file is the text written so far; texts of floats as a parameter without blanks; spec: words of a line and lines of a text (`WrSpec`) defined without the formatting |
| C172-C173 | `Pm*`: planes and pixels over the reals, the angles of a point as a parameter; spec: lines through the origin, sides of a pixel, distance on the circle |
| C174-C175 | `Pp*`: files as lists of frames, caches as an association list; processing of a frame and the median as parameters; omega ranges of `Omega*` |
| C176-C177 | `Sp*`: parameters as an association list with rational values, bounds and expressions; spec: admissible values of a set of parameters, and what a change by name leaves alone |
| C178-C180 | `Tm*`: images as lists of rows, reading, median, morphology and labelling as parameters; spec: pieces of a list, sizes of labels, values at a row and column |
| C181 | `Tm*`: measurements as lists of rings and panels; names as in `Names*` |
| C182-C184 | `Cmd*`: a disk as a function from names to rows, a run as the list of its writes, so that a crash is a prefix of it; indexing and fitting are parameters; grain tables on top of `Wr*`, rotations of `Rot*`; spec: what an analysis starts from, grains as rows |
| C185 | `Zp*`: directions as vectors on top of `Xf*`; spec: the line through the pole, distance and azimuth, area of a cap |
| C186-C189 | `Phy*`: the object as its layers and its own dictionary, attribute access as Python does it; spec: the value last assigned, by a fold over the history; invariant: both places agree |
| C190 | `Hsl*`: colours as vectors of reals, floor and remainder of the reals; spec: six sides of the wheel of colours |
| C191-C192 | `Jc*`: lines as lists of words, attributes by name; spec: the last line under a key, the cell of a crystal system, determinant of the metric |

All of these can be expressed in a model, some only in part (see MANIFEST.json for the final status and what is missing).

## What is modelled and what is not

Modelled, function by function (each definition cites its lines):

| area | /repo |
|------|-------|
| Tasks, Parallel, Memo | `core/utils/concurrent.py`, `multiprocess_generic.py`, `decorators.py` (memoize, _make_hashable) |
| Stats, Omega, Process | `core/imageseries/stats.py`, `omega.py`, `process.py` |
| Cache, Lazy, Files | `core/imageseries/save.py` (frame caches), `load/framecache.py`, `load/imagefiles.py`, `load/rawimage.py`, `imageseriesiter.py`, `matrixutil.extract_ijv` |
| Config, H5 | `core/config/{config,utils,__init__,root}.py`, `core/utils/hdf5.py` |
| Grid | `core/gridutil.py`, `matrixutil.findDuplicateVectors` |
| Plane, Names, Units | `core/material/crystallography.py` (PlaneData ordering and exclusions, index conversions), `core/utils/hkl.py`, `core/fitting/calibration` (names, picks), `core/valunits.py` |
| Tensor, Rot, Rig | `core/matrixutil.py`, `core/rotations.py`, `core/fitting/calibration/{lmfit_param_handling,relative_constraints}.py` |
| Xf | `core/transforms/new_capi/*.c`, `cpp_sublibrary/src/transforms.cpp`, `xfcapi.py`, `core/instrument/planar_detector.py` |
| Dist | `core/distortion/*.py`, `cpp_sublibrary/src/inverse_distortion.cpp` |
| Lat, Sg, Uc | `core/material/crystallography.py` (cell geometry), `symmetry.py`, `spacegroup.py`, `constants.SYS_AB_*`, `symbols.py` (generator strings, transcribed into `SgTables.v`), `unitcell.py` (metric part, symmetry, reflection lists) |
| Det | `core/instrument/detector.py` (pixel coordinates, clipping, interpolation), `core/utils/panel_buffer.py` |
| Cyl | `core/instrument/cylindrical_detector.py` (positions, angles, normals, beam position; without distortion), `hed/xrdutil/utils.py` (cylinder functions), `hedm/xrdutil/utils.py` (`_dvec_to_angs`, names of the module) |
| Mod | `hexrd/module_map.py`, `hexrd/file_table.tsv` and the tree of Python files (transcribed into `ModTable.v` by `tools/modtable.py`), Python's import of dotted names; not: the contents of files, imports made while they are executed |
| Idx | `hexrd/hedm/indexer.py`: paintGrid and everything it calls except `xfcapi` (area Xf) and logging; `multiprocessing.Pool.map` as chunks completed in any order. The reals stand for floats, NaN is `None`; `etaIndices`, `omeIndices` are the identity; equal starts may be sorted in another order than numpy's |
| Stf | `hexrd/core/material/unitcell.py`: `_StiffnessDict` with its index lists and equality functions, `Required_C`, `MakeStiffnessMatrix`, the property `compliance`. Reals stand for floats; `numpy.linalg.inv` is a parameter whose answers are assumed to be inverses |
| Eos | `hexrd/core/material/material.py`: `vt`, `kt`, `ktp`, `pt_lp_factor`, `lparms0`, `calc_pressure`, `calc_volume`, `calc_lp_factor`, `calc_lp_at_PT`. Reals stand for floats; `numpy.roots` is a parameter assumed to return exactly the real roots (double roots of an equation solved in floating point may come out complex and be dropped). That such a function exists is shown with the standard library's axiom of relational choice (`C107_roots_ex`); no theorem uses it |
| Mat | `hexrd/core/material/material.py`: constructor from collected attributes, `_reset_lparms`, `_newUnitcell`, `_newPdata`, `_hkls_changed`, `set_default_exclusions`, `hkls_match`, `map_hkls_to_new`, the setters of sgnum, sgsetting, latticeParameters, dmin, beamEnergy, U, charge, atominfo, atomtype, `_set_atomdata`; `crystallography.py`: `set_laue_and_lparms`, `wavelength`, `structFact`, `invalidate_structure_factor` on top of the Plane area. Not modelled: reading files, absorption and pressure attributes, the stiffness; the lists of reflections, angles and structure factors are parameters |
| Orb | `hexrd/core/material/crystallography.py`: `PlaneData.makePlaneData` (with `latticePlanes` of the Lat area), `getMultiplicity`, `_getHKLID` for tuples; `hexrd/core/rotations.py`: `applySym`, `ltypeOfLaueGroup`; `hexrd/core/matrixutil.py`: `findDuplicateVectors`. Left out: the loose lattice types, text output, the pass-through of integer ids |
| Fp | `hexrd/core/material/crystallography.py`: `getFriedelPair`. Left out: reference angles given as an array, log output |
| Fib | `hexrd/core/rotations.py`: `discreteFiber`, `distanceToFiber`; `hexrd/core/matrixutil.py`: `uniqueVectors`, `nullSpace` of one column (parameter); `hexrd/hedm/findorientations.py`: `discretefiber_reduced`. Left out: sample symmetry (NotImplementedError in toFundamentalRegion), array shapes, the sign of quaternions with zero scalar part |
| Clu | `hexrd/core/rotations.py`: `quatAverageCluster`; `hexrd/hedm/findorientations.py`: `run_cluster`. Left out: logging, the distance function handed to the clustering routines, which are parameters |
| Eom, Eow | `hexrd/core/instrument/detector.py`: the eta edges of `make_powder_rings`; `hexrd/core/instrument/hedm_instrument.py`: `_generate_ring_params`, `_run_histograms`, `extract_polar_maps`; `hexrd/hedm/instrument/generate_eta_omega_maps.py`: `GenerateEtaOmeMaps`. Left out: the pixel angles themselves (parameters), disk output |
| Ems | `hexrd/hedm/findorientations.py`: the choice of hkls in `generate_eta_ome_maps`, `load_eta_ome_maps`, `clean_map`, `_filter_eta_ome_maps`, `filter_maps_if_requested`, the seeds of `generate_orientation_fibers`; `hexrd/hedm/xrdutil/utils.py`: `EtaOmeMaps` and its saving; the active_hkls of `extract_polar_maps`. Left out: the pickled arrays themselves, units, the gauss-laplace filter and the peak search |
| Var | `hexrd/phase_transition/variants.py`: `removeinversion` by its result, `expected_num_variants`, `get_rmats`, `isnew`, `getOR`, the checks and result of `getPhaseTransformationVariants`. Left out: the conversion of planes and directions to cartesian vectors by the lattice, plots |
| Snp | `hexrd/core/convolution/convolve.py`: `convolve` and `convolve.c` for one-dimensional arrays; `hexrd/core/imageutil.py`: `_scale_image_snip`, `snip1d`, `_run_snip1d_row`, one row of `fast_snip1d`. Left out: two- and three-dimensional arrays, OpenMP (its loop iterations write different elements), integer images |
| Fgr | `hexrd/hedm/fitgrains.py`: all functions but the spots files, cancelling and `return_pull_spots_data`; `hexrd/hedm/fitting/grains.py`: `matchOmegas`, `objFuncFitGrain` (residuals and chi squared, given the omegas of a reflection and where it meets a panel). `pull_spots` and the optimiser are parameters |
| Pk, Pkf | `hexrd/core/fitting/peakfunctions.py`: Gaussian, Lorentzian, pseudo-Voigt, split pseudo-Voigt, step, 2-d and 3-d functions, `mpeak_1d`, `_mixing_factor_pv`, `_gaussian_pink_beam` (not the other pink beam functions, erfc and exponential integrals); `hexrd/core/fitting/fitpeak.py`: `estimate_pk_parms_1d`, `estimate_mpk_parms_1d`, `fit_pk_parms_1d`, the residuals, `goodness_of_fit` (not 2-d fits, `direct_pk_analysis`) |
| Pol | `hexrd/core/projections/polar.py` with interpolation (not `do_interpolation=False`, which is C94; not the construction from plane data); `_interpolate_bilinear_in_place` and `_generate_bilinear_interp_dict` of detector.py |
| Rfz | `hexrd/hedm/sampleOrientations` (all of it) with the constants it uses; `arccos` outside [-1, 1] (NaN in numpy) and unchecked indexing of compiled code are not modelled; None as a condition counts as false (compiled code may raise instead) |
| Nf | `hexrd/hedm/grainmap/nfutil.py`: `_quant_and_clip_confidence`, `get_offset_size`, `gather_confidence`, `test_orientations`, `_grand_loop_inner`, `multiproc_inner_loop`, `process_raw_confidence`; that workers started with spawn have the rank of their parent is assumed; the simulation of reflections is a parameter; pools, temporary files and timing are not modelled |
| Nfg | `hexrd/hedm/grainmap/nfutil.py`: `generate_test_grid`, `gen_nf_test_grid`, `gen_nf_test_grid_tomo`, the selection of grains, misorientations and names of `gen_trial_exp_data`, `output_grain_map` with the cells of its VTK output, `scan_detector_parm`; files, detector geometry and the evaluation of a trial are not modelled; floating point rounding of `arange` is not modelled |
| Sim | `hexrd/hedm/xrdutil/utils.py`: `_filter_hkls_eta_ome`, `simulateGVecs`, `apply_correction_to_wavelength`; `hexrd/hed/xrdutil/utils.py`: `_project_on_detector_plane` (the selection of valid rows); `hexrd/core/instrument/detector.py`: `simulate_rotation_series`; the omega period is given by its least and greatest entries; energies and wavelengths are real numbers with one conversion constant |
| Hc | `hexrd/hedm/config/findorientations.py`, `hexrd/hedm/config/fitgrains.py`, `hexrd/core/config/material.py` (definitions, tth_width), `hexrd/core/config/utils.py` (`get_exclusion_parameters`), `hexrd/core/config/config.py` (`check_filename`), `hexrd/core/config/root.py` (file placement, `image_series`, `fit_grains`); os.path, the file system, imageseries.open and metadata are parameters; lower-casing and stripping are ASCII; paths are lists of parts |
| Chk | `hexrd/core/instrument/hedm_instrument.py`: `generate_chunks`, `chunk_instrument`, `_parse_imgser_dict`; the entries of a panel configuration that say where its pixels are, its region and its buffer (`config_dict`); image series are lists of frames; a stack of images with exactly two rows (which Python can unpack) is left open; rectangles with negative ends and distortion are not modelled |
| Bv | `hexrd/core/instrument/hedm_instrument.py`: `calc_beam_vec`, `calc_angles_from_beam_vec`, `angle_in_range`, `centers_of_edge_vec`, `max_tth` (given the angles of the pixels); signs of zero are not distinguished |
| Cal | `hexrd/core/fitting/calibration/lmfit_param_handling.py` (all but `create_tth_parameters`), `abstract_grain.py` parameters, `powder.py` parameters, `instrument.py` (`make_lmfit_params`, `update_all_from_params`, `run_calibration` with the optimiser as an arbitrary sequence of trials); lmfit clipping to bounds, name syntax, and states left by an exception are not modelled |
| Wr | `hexrd/core/instrument/hedm_instrument.py` `PatchDataWriter`, `GrainDataWriter`, group names of `GrainDataWriter_h5`; formatting of floats, matrix logarithm and inverse are parameters; opening and closing of files and HDF5 datasets are not modelled |
| Pm | `hexrd/core/instrument/detector.py` `map_to_plane`, `hexrd/hedm/xrdutil/utils.py` `_expand_pixels`, `_compute_max`, `angularPixelSize` (with `xy_to_gvec` and the distortion as parameters) |
| Pp | `hexrd/hedm/preprocess/preprocessors.py` frames, caches and the loop over files and panels; the formats of Eiger files, thresholds and profiles are not modelled |
| Sp | `hexrd/core/fitting/utils.py:18-121` names, refinement, ties by a text, bounds and separations of peaks; lmfit clipping values to bounds is not modelled |
| Tm | `hexrd/hedm/grainmap/tomoutil.py` all functions (inverse Radon transform, resizing, labelling, erosion and dilation are parameters or left out), `hexrd/core/fitting/calibration/lmfit_param_handling.py:527-559` |
| Cmd | `hexrd/hedm/cli/fit_grains.py` (GrainData, execute, write_results), `hexrd/hedm/cli/find_orientations.py` (execute, write_results); logs, directories, profiling, scored orientations and npz files are left out |
| Zp | `hexrd/hedm/xrdutil/utils.py:133-231` |
| Phy | `hexrd/core/instrument/physics_package.py` (not the names that end in `_absorption_length`, 181-190), `hexrd/core/instrument/detector_coatings.py` (not the two methods of absorption) |
| Hsl | `hexrd/hedm/ipfcolor/colorspace.py` |
| Jc | `hexrd/core/material/jcpds.py` (not name, version and comments of a card) |

Not modelled: floating point rounding (except where a file says so), numpy/scipy/numba/h5py/lmfit internals (their documented results are written into the model), memory layout and dtypes except where a property is about them, the GUI-facing and plotting code, and the modules not named above.

## Trusted base

* Coq 8.16.1's kernel, including `vm_compute` conversion, and `coqc`.
* The reading of the Python, C and C++ sources: that the definitions in the `*Model.v` files say what the cited lines do. This is by inspection; nothing was extracted or run.
* The tables in `SgTables.v` were transcribed by a script from `symbols.py`, `spacegroup.py` and `constants.py`; their agreement with the source is by inspection, their correctness as crystallography is partly proved (C85–C88).
* No axiom of our own. The axioms of the standard library that `Print Assumptions` lists are those of the real numbers (`ClassicalDedekindReals.sig_forall_dec`, `ClassicalDedekindReals.sig_not_dec`), `FunctionalExtensionality.functional_extensionality_dep`, which the reals use too, and `Classical_Prop.classic`, which enters through the library's trigonometry. Theorems by what is listed under them:

<!-- ASSUMPTIONS -->
* Closed under the global context (no axiom): `C16_sparse_round_trip_partial`, `C16_count_fits_buffers`, `C16_rest_of_buffer_untouched`, `C16_tall_frame_refuted`, `C17_fch5_frames_read_back`, `C17_fch5_layout`, `C17_fch5_writes_in_bounds`, `C17_fch5_completes`, `C18_npz_frames_read_back`, `C18_npz_buffers_not_shared`, `C18_npz_completes`, `C18_npz_empty_series_refuted`, `C55_npz_metadata_round_trip_partial`, `C55_reserved_metadata_refuted`, `C158_order`, `C158_cover`, `C158_cover_all`, `C158_disjoint`, `C158_gap_refuted`, `C159_entries`, `C159_chunk`, `C159_where_partial`, `C159_relative`, `C159_refuted`, `C160_images`, `C160_region`, `C160_refuted`, `C182_fit_keeps`, `C182_find_keeps_partial`, `C182_find_keeps_refuted`, `C182_fit_starts_partial`, `C182_fit_finishes`, `C182_fit_refuses`, `C182_own_orientations_refuted`, `C182_unset_refuted`, `C182_fitted_refuted`, `C183_read_refuted`, `C21_get_present`, `C21_get_absent`, `C21_get_blocked`, `C21_set_get_partial`, `C21_set_lost_refuted`, `C21_set_frame`, `C21_last_assignment_wins`, `C22_sections`, `C22_own_value_wins`, `C22_inherited`, `C22_no_invention`, `C22_no_key_lost`, `C22_raises_iff_conflict`, `C60_save_reopen_partial`, `C60_single_section_refuted`, `C60_cleared_value_refuted`, `C23_process_count_partial`, `C23_meaning`, `C23_invalid_setting_refuted`, `C23_setter_ignored_refuted`, `C97_angles_to_cart_refuted`, `C97_beam_position_refuted`, `C92_round_trip`, `C92_pixel`, `C93_clip`, `C93_total`, `C93_stored_mask`, `C93_border_mask`, `C93_border_mask_refuted`, `C93_full_mask_refuted`, `C94_bilinear_partial`, `C94_blend`, `C94_strip_refuted`, `C94_integer_refuted`, `C94_single_row_refuted`, `C95_nearest_refuted`, `C95_upper_left_partial`, `C123_requested`, `C123_ranges`, `C123_unknown_id`, `C123_python_int_refuted`, `C123_array_refuted`, `C124_saved`, `C124_ids_partial`, `C124_ids_refuted`, `C124_load`, `C124_clean_refuted`, `C121_schedules`, `C130_consistent`, `C130_too_few`, `C130_rounds`, `C130_no_tolerance`, `C130_each`, `C130_schedules`, `C130_table`, `C130_chosen_refuted`, `C130_chosen_partial`, `C130_numbers_refuted`, `C118_single_refuted`, `C19_length`, `C19_too_many_empty_frames_raises`, `C19_multi_frame_files`, `C19_single_frame_files_partial`, `C19_empty_frames_refuted`, `C19_max_total_refuted`, `C20_accepted_iff_partial`, `C20_long_header_refuted`, `C20_frame_bytes`, `C20_keys_outside_raise`, `C59_concurrent_raw_reads`, `C59_no_deadlock`, `C58_iteration_yields_every_frame`, `C58_errors_propagate_partial`, `C58_index_error_swallowed_refuted`, `C26_clip_convex_exact`, `C26_clip_inside_both`, `C26_clip_inside_unchanged`, `C26_hull_contains_means`, `C27_area_is_shoelace`, `C27_area_start_vertex`, `C27_area_reversed`, `C27_area_translated`, `C27_area_cut`, `C27_area_convex_nonneg`, `C27_cell_area_iff_parallel_partial`, `C27_cell_area_general_refuted`, `C28_connectivity_flat`, `C28_connectivity_layers`, `C28_connectivity_lower_left`, `C28_connectivity_unit_area`, `C29_cell_index_increasing`, `C29_cell_index_outside`, `C29_cell_index_decreasing_partial`, `C29_cell_index_decreasing_first_edge_refuted`, `C62_tolerance_grid_uniform`, `C62_tolerance_grid_one_sided`, `C30_duplicates_kept_and_grouped`, `C30_duplicates_removed_have_kept_partial`, `C30_duplicates_chain_refuted`, `C24_store_then_read`, `C24_argument_is_consumed`, `C61_store_terminates`, `C24_shared_dictionary_refuted`, `C25_nested_metadata_emptied_refuted`, `C25_flat_metadata_unchanged_partial`, `C154_algorithm`, `C154_required`, `C154_period`, `C154_tolerances`, `C154_refit`, `C154_flags_partial`, `C154_flags_refuted`, `C154_tth_max`, `C154_active_hkls`, `C154_method_partial`, `C154_method_refuted`, `C154_files`, `C154_seeds`, `C154_exclusions`, `C154_exclusions_refuted`, `C154_width`, `C155_eta`, `C155_eta_refuted`, `C155_divisions`, `C155_divisions_refuted`, `C155_zero`, `C156_kinds`, `C156_current`, `C156_old_partial`, `C156_refuted`, `C157_entry`, `C157_images`, `C157_failed_refuted`, `C157_kept`, `C157_fit`, `C157_stale_refuted`, `C104_any_order`, `C104_paint_partial`, `C104_few_refuted`, `C43_capitals_refuted`, `C56_lazy_load_safe`, `C56_lazy_load_no_deadlock`, `C56_lazy_load_bounded`, `C56_raises_only_if_a_load_failed`, `C57_file_cache_transparent_partial`, `C57_same_stat_refuted`, `C109_consistent`, `C109_recovers`, `C109_single_refuted`, `C109_failed_refuted`, `C109_stale_refuted`, `C109_voltage_refuted`, `C109_ex`, `C110_exclusions`, `C110_assigned`, `C110_initial`, `C110_limit_refuted`, `C110_ex`, `C111_structure_factors`, `C111_stale_refuted`, `C111_ex`, `C03_memo_returns_function_values`, `C03_memo_transparent`, `C03_memo_bounded`, `C03_memo_lru`, `C03_memo_keeps_m_most_recent`, `C03_memo_counters`, `C03_exceptions_not_cached`, `C03_zero_size_raises`, `C04_keyword_order_irrelevant`, `C04_keys_separate_plain_arguments_partial`, `C04_key_collisions_refuted`, `C51_concurrent_values_correct`, `C51_concurrent_no_error_with_room_partial`, `C51_concurrent_error_refuted`, `C52_cached_array_protected`, `C52_cached_tuple_refuted`, `C53_stale_pixel_angles_refuted`, `C53_fresh_objects_current_partial`, `C98_same_module`, `C98_nothing_lost`, `C98_again`, `C98_merged_modules`, `C98_merged_names`, `C98_chosen`, `C99_old_names_partial`, `C99_gone_refuted`, `Mod_example`, `C47_rename_no_collision`, `C47_validate_detects_exactly_duplicates`, `C47_renamed_list_validates`, `C47_mapping_refuted`, `C48_distortion_slots_partial`, `C48_eleven_refuted`, `C48_substring_refuted`, `C50_hkl_string_round_trip`, `C50_hkl_string_injective`, `C63_grain_picks_round_trip_partial`, `C63_grain_repeated_reflection_refuted`, `C63_powder_picks_round_trip`, `C64_tth_tol_setter_refuted`, `C64_tth_tol_setter_none_refuted`, `C143_confidence`, `C143_bounds`, `C143_order`, `C143_unseen`, `C143_end_refuted`, `C143_start_refuted`, `C144_complete`, `C144_same`, `C144_limit`, `C144_limit_partial`, `C144_limit_refuted`, `C144_negative_refuted`, `C144_nothing`, `C145_partition`, `C145_gather_partial`, `C145_gather_refuted`, `C145_returned_refuted`, `C146_best`, `C146_unique`, `C146_remap_partial`, `C146_remap_refuted`, `C146_short`, `C147_voxels`, `C147_filled`, `C147_layer`, `C147_spacing`, `C147_reversed_refuted`, `C147_samples`, `C147_tomo_partial`, `C147_tomo_refuted`, `C148_orientations`, `C148_names_partial`, `C148_names_refuted`, `C148_number_refuted`, `C148_spacing`, `C149_stitched`, `C149_positions`, `C149_errors`, `C149_vtk`, `C150_trials`, `C150_restored_refuted`, `C150_points`, `C150_points_refuted`, `C150_errors`, `C08_wedges_partition_frames`, `C08_increasing_accepted`, `C08_length_mismatch_rejected`, `C08_decreasing_rejected_partial`, `C08_decreasing_last_frame_refuted`, `C09_not_found_iff_outside`, `C09_found_frame_in_first_containing_wedge`, `C09_found_frame_contains_angle`, `C09_found_frame_near_angle`, `C10_range_in_one_wedge`, `C10_returned_iff_frame_meets_range`, `C10_range_across_the_seam`, `C10_endpoint_outside_gives_nothing`, `C10_only_existing_frames`, `C10_range_inside_one_frame_is_empty`, `C10_single_frame_refuted`, `C10_seam_tolerance_refuted`, `C11_omegas_after_any_history`, `C11_operations`, `C11_wedges_survive_round_trip`, `C114_index`, `C114_master_partial`, `C114_master_refuted`, `C02_results_in_input_order`, `C02_runs_are_bounded`, `C02_always_returns_all_results`, `C02_unloggable_result_deadlock_refuted`, `C02_positional_arguments_refuted`, `C44_mask_reads_back`, `C44_indices_hide`, `C44_ranges_hide`, `C44_lists_match_mask_partial`, `C44_exclude_flags`, `C44_exclusions_follow_reflections`, `C44_mask_lists_refuted`, `C44_indices_mask_refuted`, `C44_no_angle_refuted`, `C65_count_after_exclusions_partial`, `C65_count_after_lattice_change`, `C65_maximum_refuted`, `C65_raised_maximum_refuted`, `C66_lookup_by_id_partial`, `C66_lookup_refuted`, `C67_merged_ranges`, `C67_merged_every_reflection_once`, `C67_merged_covers`, `C137_grid`, `C137_size`, `C137_partition`, `C137_middle`, `C137_extent`, `C137_settings`, `C137_set`, `C137_reversed_refuted`, `C137_short_refuted`, `C138_sum_partial`, `C138_mask_partial`, `C138_mask_plain_partial`, `C138_pad_partial`, `C138_order_partial`, `C138_cached`, `C138_overlap_refuted`, `C138_stale_refuted`, `C139_bins_partial`, `C139_long`, `C139_outside_refuted`, `C139_wide_refuted`, `C139_ends_refuted`, `C174_frames_partial`, `C174_start_refuted`, `C175_panels_partial`, `C175_panels_refuted`, `C175_dark`, `C174_ex`, `C175_ex`, `C12_length`, `C12_frame_list_reindexes`, `C12_keys_outside_raise`, `C12_negative_keys`, `C12_no_frame_list`, `C12_operations_in_order`, `C12_omega_follows_frames`, `C12_base_metadata_unchanged`, `C12_numpy_frame_list_refuted`, `C13_codes_are_symmetries_of_the_square`, `C13_symmetries_form_a_group`, `C13_flip_sequences_compose`, `C13_flips_permute_pixels`, `C13_identities`, `C13_code_meanings`, `C14_region_read_equals_rectangle_partial`, `C14_optimisation_invisible_partial`, `C14_rectangle_meaning`, `C14_nested_processed_refuted`, `C14_hdf5_2d_refuted`, `C15_dark_clamps_at_zero_partial`, `C15_dark_unsigned`, `C15_dark_unsigned_refuted`, `C54_add_row`, `C54_add_column_is_transposed_add_row`, `C54_index_range`, `C85_space_group_operations`, `C85_centring`, `C85_second_origin`, `C85_handedness`, `C85_range_refuted`, `C86_point_and_laue_groups`, `C86_symmorphic_partial`, `C87_named_point_groups_partial`, `C87_named_point_groups_refuted`, `C87_supergroups_refuted`, `C88_allowed_reflections_partial`, `C88_order`, `C88_absent_removed`, `C88_pyrite_refuted`, `C153_none`, `C176_refine`, `C176_bounds`, `C176_box`, `C176_widths`, `C176_equal`, `C177_close`, `C177_separated`, `C177_start`, `C177_single`, `C177_window_refuted`, `C05_chunk_stops_partition`, `C05_chunk_sizes_even`, `C05_bad_counts_raise`, `C06_chunked_prefixes`, `C06_last_chunk_is_one_shot`, `C06_last_average_is_one_shot`, `C06_percentile_chunking_irrelevant`, `C07_sum_iter_yields_stay_valid`, `C07_average_iter_yields_stay_valid_partial`, `C07_average_iter_first_yield_overwritten`, `C07_average_iter_refuted`, `C07_heap_model_agrees`, `C01_distribute_tasks_partition`, `C01_zero_workers_raises`, `C01_negative_workers_assign_nothing`, `C31_stress_round_trip`, `C69_argument_shape_refuted`, `C178_names`, `C178_bright`, `C179_layer_partial`, `C179_last_refuted`, `C180_sinogram_partial`, `C180_axis`, `C180_angles`, `C180_full_refuted`, `C180_crop_partial`, `C180_crop_refuted`, `C45_rhombohedral_round_trip`, `C45_integer_iff_obverse`, `C45_hexagonal_round_trip`, `C45_float_not_obverse_refuted`, `C68_direction_indices_inverse`, `C68_direction_reversed_refuted`, `C68_redundant_index_refuted`, `C68_many_directions_refuted`, `C169_patch_file`, `C169_patch_aligned`, `C169_four_indices_refuted`, `C170_columns_refuted`, `C171_spots`, `C169_ex`, `C169_ex_hyp`, `C171_ex`, `C186_last`, `C186_made`, `C186_radius`, `C186_radius_assigned`, `C186_diameter`, `C186_refused`, `C186_misspelt_refuted`, `C187_saved`, `C187_restored`, `C187_made`, `C188_thickness`, `C188_standoff`, `C188_pinhole`, `C188_unknown`, `C188_absorption`, `C189_made`, `C189_phosphor`, `C189_restored`, `C189_complete`, `C192_written`.
* `ClassicalDedekindReals.sig_forall_dec`: `C130_twice_refuted`, `C83_unknown_space`, `C134_parabola_refuted`, `C70_accepts_exactly_equal_lengths`, `C71_dyads`, `C181_rings`, `C76_dvecs`.
* `ClassicalDedekindReals.sig_forall_dec`, `FunctionalExtensionality.functional_extensionality_dep`: `C162_centres`, `C162_max_tth`, `C166_material_params`, `C166_material_update`, `C166_material_round_trip`, `C167_force`, `C167_fix_grain`, `C167_tardis_partial`, `C167_tardis_refuted`, `C183_select`, `C183_read_partial`, `C42_dexela_quadrants`, `C125_clean`, `C125_median`, `C125_all_nan`, `C125_filter`, `C125_filter_zero`, `C125_filter_twice`, `C125_requested`, `C126_seeds`, `C126_bin`, `C121_one_detector`, `C121_all_detectors`, `C121_conserved`, `C121_nan_refuted`, `C122_rows`, `C122_gap_refuted`, `C122_label_refuted`, `C131_valid`, `C131_fails`, `C131_overlap_refuted`, `C132_chisq_partial`, `C132_chisq_refuted`, `C118_unique_vectors`, `C118_exact`, `C102_window`, `C102_nan`, `C102_seam_refuted`, `C103_thresholds`, `C103_default_threshold_refuted`, `C133_lorentzian`, `C134_lorentzian`, `C134_line_partial`, `C136_window`, `C136_units_refuted`, `C136_guess_partial`, `C136_guess_refuted`, `C136_goodness`, `C136_goodness_order_refuted`, `C172_map`, `C172_self`, `C172_through`, `C172_ray_refuted`, `C172_ex`, `C32_unit_is_rotation`, `C32_same_rotation_iff_sign`, `C32_product_matrices`, `C33_from_matrix_partial`, `C33_half_turn_refuted`, `C153_correction`, `C153_defined`, `C153_intercept`, `C153_axis_refuted`, `C128_convolve`, `C128_refused`, `C128_bounds`, `C105_number`, `C105_trigonal_312_refuted`, `C106_thousandfold`, `C106_constants_refuted`, `C106_compliance`, `C106_refused`, `C31_strain_round_trip`, `C69_axial_vector`, `C69_decomposition`, `C70_best_rotation`, `C71_block_diagonal`, `C41_unique`, `C185_one_to_one_partial`, `C190_colour_partial`, `C190_round_trip_partial`, `C190_back_partial`, `C190_refused`, `C190_in_range`, `C190_input_partial`, `C190_input_refuted`, `C192_mismatch`, `C192_differs_partial`, `C192_matches_refuted`, `C192_same_refuted`.
* `ClassicalDedekindReals.sig_forall_dec`, `ClassicalDedekindReals.sig_not_dec`, `FunctionalExtensionality.functional_extensionality_dep`: `C161_unit`, `C162_wedge`, `C162_wrap_refuted`, `C163_panel_named`, `C163_half_turn_refuted`, `C164_update_sets`, `C164_groups_kept`, `C165_history`, `C168_grain_round_trip`, `C183_round_trip`, `C96_positions`, `C96_normals`, `C97_intersection`, `C121_edges`, `C121_one_bin`, `C121_uncovered_refuted`, `C107_temperature`, `C107_expansion_refuted`, `C131_saturated_refuted`, `C131_refined_partial`, `C131_backwards_refuted`, `C131_distortion_refuted`, `C132_nearer`, `C132_nearer_partial`, `C132_residuals`, `C132_misses`, `C132_misses_refuted`, `C116_fiber`, `C116_near_opposite_refuted`, `C116_one_division_refuted`, `C100_membership`, `C100_one_or_two`, `C100_four_refuted`, `C101_verdict`, `C101_unique`, `C43_when_a_cell_exists`, `C135_pink_refuted`, `C173_sizes`, `C173_turns`, `C173_extent_refuted`, `C140_ortho_refuted`, `C49_system_moves_rigidly`, `C49_groups_move_rigidly`, `C49_distances_and_orientations_kept`, `C49_zero_change_system`, `C49_zero_change_groups`, `C49_conversion_exact`, `C49_both_conversions_agree`, `C74_system_mean_centre`, `C74_group_mean_centre`, `C74_origin_refuted`, `C74_group_instrument_centre_refuted`, `C32_every_rotation_has_quaternion`, `C32_product_partial`, `C32_product_half_turn_refuted`, `C32_fix_quat`, `C32_inverse`, `C33_angle_axis_partial`, `C33_exp_map`, `C33_exp_map_quaternion_partial`, `C34_laue_group`, `C34_no_repeats`, `C34_preserves_lattice`, `C35_map_angle_partial`, `C35_default_range`, `C35_angles_in_range_unchanged`, `C35_rejected_ranges`, `C35_inexact_width_refuted`, `C36_angular_difference_partial`, `C36_beyond_one_turn_refuted`, `C36_original_function`, `C72_fundamental_region`, `C72_same_angle_for_equivalents`, `C73_change_of_units_partial`, `C73_capitals_refuted`, `C89_extinction`, `C89_allowed_are_observable_partial`, `C89_structure_factor_of_removed`, `C151_filter`, `C151_mismatch`, `C151_senses_partial`, `C151_whole_turn`, `C152_grain`, `C152_period`, `C152_series`, `C152_nan`, `C152_unchanged_refuted`, `C153_older_refuted`, `C105_has_symmetry`, `C105_complete`, `C105_monoclinic_refuted`, `C105_monoclinic_about_c_partial`, `C31_mandel_round_trip`, `C31_vecds_round_trip`, `C31_inner_product`, `C69_normal_projection`, `C46_conversion_meaning`, `C46_round_trip`, `C46_composition`, `C46_sum_unit_independent`, `C46_convertible_partial`, `C46_nanometre_refuted`, `C127_variants`, `C127_aligned`, `C127_not_in_plane_refuted`, `C170_grain_file`, `C170_grain_table`, `C170_ex`, `C37_total`, `C37_mismatch`, `C37_accepts_partial`, `C37_near_partial`, `C37_full_circle`, `C37_empty_arc_refuted`, `C39_sample`, `C39_detector`, `C39_binary`, `C39_expmap`, `C39_beam`, `C39_beam_error`, `C40_points_partial`, `C40_points_each_partial`, `C40_no_point`, `C40_default_beam`, `C40_mismatch`, `C40_cannot_diffract_refuted`, `C40_strain_refuted`, `C75_dvec`, `C75_gvec`, `C77_on_beam`, `C77_facing_partial`, `C77_upstream_refuted`, `C78_unit_refuted`, `C79_rotated`, `C79_one_row_refuted`, `C185_projected`, `C185_method`, `C185_area`, `C185_poles_refuted`, `C185_mask_refuted`, `C185_input_partial`, `C185_input_refuted`, `C185_beam`, `C191_keyed`, `C191_readable`, `C191_blank_refuted`, `C191_fixed`, `C191_volume`.
* `ClassicalDedekindReals.sig_forall_dec`, `ClassicalDedekindReals.sig_not_dec`, `Classical_Prop.classic`, `FunctionalExtensionality.functional_extensionality_dep`: `C161_angles_back`, `C161_direction_back`, `C161_short_refuted`, `C163_round_trip_partial`, `C163_constrained_partial`, `C166_energy_refuted`, `C168_names`, `C168_pair_refuted`, `C168_same_name_refuted`, `C119_single`, `C119_pair_partial`, `C119_many`, `C119_within`, `C119_equivalent`, `C119_tie_refuted`, `C119_half_turn_refuted`, `C119_region_refuted`, `C120_none`, `C120_one`, `C120_clusters`, `C120_unknown`, `C120_labels_refuted`, `C184_start_partial`, `C96_sheet`, `C96_unbend`, `C97_angles`, `C97_pixel_angles`, `C97_unnormalised_refuted`, `C97_projection_partial`, `C97_round_trip_partial`, `C97_turned_sample_refuted`, `C97_beam_position_partial`, `C42_dexela_displacement`, `C42_dexela_partial`, `C42_dexela_refuted`, `C42_quad`, `C42_quad_map`, `C42_quad_singular_refuted`, `C42_ge_law`, `C42_ge_partial`, `C42_polar_coordinates`, `C42_ge_nan_refuted`, `C42_ge_exponents_refuted`, `C42_trivial`, `C42_get_mapping`, `C132_nearer_refuted`, `C116_complete`, `C116_symmetry`, `C116_spot`, `C117_distance`, `C117_members`, `C115_pairs_partial`, `C115_fable_refuted`, `C115_tilt_refuted`, `C115_single_refuted`, `C100_three_refuted`, `C100_overlap_refuted`, `C103_score`, `C103_threshold`, `C43_direct_lattice`, `C43_reciprocal_lattice`, `C43_fable_frame`, `C43_parameters_from_vectors`, `C43_rejected`, `C81_plane_normals_and_spacings`, `C81_bragg_angles`, `C81_strain_bounds`, `C82_metric_tensors`, `C82_structure_matrices_partial`, `C82_near_right_angle_refuted`, `C83_spaces_partial`, `C83_products_and_lengths`, `C83_angles_partial`, `C83_small_angles_refuted`, `C83_cross_products_partial`, `C84_rhombohedral_parameters`, `C84_rhombohedral_lattice`, `C84_direction_to_cartesian`, `C99_import_changes_program_refuted`, `C112_family`, `C112_normals`, `C112_same_family`, `C112_multiplicity`, `C112_centrosym`, `C113_space_group_partial`, `C113_every_reflection_once_partial`, `C113_sideways_refuted`, `C133_gaussian`, `C133_pvoigt`, `C133_split`, `C133_widths`, `C133_single_peak`, `C133_zero_width`, `C133_too_few`, `C133_step`, `C133_gaussian2d`, `C133_gaussian2d_rot`, `C133_split2d_rot`, `C133_gaussian3d`, `C134_gaussian`, `C135_sum`, `C135_order`, `C135_refused`, `C135_cubic_refuted`, `C135_mixing`, `C135_fraction_bounds`, `C135_pure`, `C135_scale`, `C136_residuals`, `C136_bounded`, `C136_bounded_split_partial`, `C136_split_refuted`, `C136_returned`, `C136_objective`, `C136_pink_names_refuted`, `C136_estimate`, `C136_width_partial`, `C173_ex`, `C140_quaternion`, `C140_inside_partial`, `C140_trigonal_refuted`, `C140_trigonal_missing_refuted`, `C140_43m_partial`, `C140_43m_refuted`, `C141_shells`, `C141_outside`, `C141_opposite`, `C141_schedule`, `C141_sample`, `C141_in_zone_partial`, `C141_inverse`, `C141_identity`, `C141_ortho_refuted`, `C142_current`, `C142_constructor`, `C142_others`, `C142_case_refuted`, `C142_stale_refuted`, `C142_refused`, `C142_too_fine`, `C49_every_orientation_is_a_tilt`, `C32_misorientation_is_smallest`, `C32_misorientation_symmetric`, `C32_misorientation_invariant`, `C32_misorientation_zero_iff_equivalent`, `C32_one_column_refuted`, `C151_senses_refuted`, `C129_background`, `C129_passes`, `C129_order`, `C129_shift`, `C129_fast_flat_refuted`, `C69_ale3d_inverse_refuted`, `C178_radiographs`, `C178_default_refuted`, `C90_reciprocal_operations`, `C90_star`, `C90_multiplicity`, `C91_listed`, `C91_ties`, `C91_complete_partial`, `C91_oblique_partial`, `C91_nothing_refuted`, `C91_positive_dmin`, `C91_dmin_refuted`, `C91_monoclinic_refuted`, `C91_smaller_dmin_refuted`, `C37_start_refuted`, `C38_omegas_partial`, `C38_no_strain`, `C38_each`, `C38_angles_partial`, `C38_collinear_refuted`, `C41_round_trip_partial`, `C41_back_partial`, `C41_each`, `C41_back_reflection_refuted`, `C76_points_partial`, `C76_angles_back_partial`, `C76_points_back_partial`, `C76_angles`, `C76_negative_omega_refuted`, `C80_smallest`.
* `ClassicalDedekindReals.sig_forall_dec`, `ClassicalDedekindReals.sig_not_dec`, `FunctionalExtensionality.functional_extensionality_dep`, `classic`: `C107_pressure`, `C107_reference`, `C107_volume`, `C107_inverse`, `C107_no_volume`, `C107_new_material_refuted`, `C107_tension_refuted`, `C108_cell`, `C108_pressure_only`, `C108_present_cell`, `C108_thermal_refuted`.
* `ClassicalDedekindReals.sig_forall_dec`, `FunctionalExtensionality.functional_extensionality_dep`, `classic`, `dependent_unique_choice`, `relational_choice`: `C107_roots_ex`.
<!-- /ASSUMPTIONS -->

## Findings

Behaviour of the code at the pinned commit that contradicts its documentation or an obvious reading of the property. "(T)" marks those for which a theorem with a witness exists (`…_refuted`); the others were seen while reading and are not proved.

Concurrency, caching and image series
* (T) `stats.average_iter` yields the same array object each time, so a caller that keeps the yields sees only the last one.
* (T) `memoize` keys collide for arguments of different types with equal hashes, are computed from mutable arguments, and are not stable under concurrent resizing; a cached array is shared with the caller.
* (T) `multiprocess_generic` passes positional arguments wrongly, and an exception that cannot be pickled leaves the consumer waiting for ever.
* (T) `omega.OmegaWedges`: last frame of a decreasing range, ranges of one frame and the seam at 360 degrees are off by one frame or miss.
* (T) `process.py`: a frame list of numpy integers is rejected; nesting a rectangle inside a processed series applies it to the wrong axes; subtracting a dark from unsigned data wraps around.
* (T) Frame caches: row indices above 65535 wrap (uint16); an empty series cannot be read back; metadata keys that look like frame names overwrite frames; a file rewritten within one time stamp with the same size is served from the cache; nested metadata is emptied by a shallow copy.
* (T) `imagefiles.py`: the single-frame path ignores `empty_frames` and `max_total_frames`. `rawimage.py`: a header as large as a frame is rejected. An IndexError inside a frame read silently ends the iteration.
* `save.py:311-320` uses an undefined `self._cachename`; `metadata.yamlmeta` fails on an empty string.

Configuration and HDF5
* (T) `Config.set` on a missing or null block is lost; `multiprocessing: 0` style values depend on the CPU count; saving a single configuration writes a list; a value cleared in a later document comes back from an earlier one.
* (T) `unwrap_dict_to_h5` empties the caller's dictionaries, so a dictionary that occurs twice is stored once and then empty.

Grids, names, units, PlaneData
* (T) `compute_areas` (gridutil.py:147-166) is wrong unless one pair of sides is parallel; `cellIndices` gives -1 at the first edge of a decreasing grid; `findDuplicateVectors` merges chains.
* (T) Renaming parameters forgets names when old names repeat; distortion parameters 10 and up are ordered as strings; detector names that are substrings of others are confused.
* (T) Picks of a repeated hkl collapse (abstract_grain.py:138-166); `tth_tol`'s setter ignores its argument (powder.py:126-129).
* (T) PlaneData: the exclusion mask and the exclusion list disagree when the sort permutation is not an involution (crystallography.py:910-932, 1326-1334); `nHKLs` is stale after `tThMax` changes; `getHKLs(id)` tests the wrong exclusion (1526-1530, 1604-1622).
* (T) Nanometres convert to nothing (valunits.py:59-80); the Miller to Miller-Bravais conversion can reverse a direction and raises for more than two.

Rotations and rigid motion
* (T) `quatProduct` and `quatOfRotMat` return the zero quaternion for half turns (rotations.py:113-117); `mapAngle` accepts periods slightly off 2 pi and then is not congruent; `RotMatEuler` accepts 'Degrees' but treats it as radians; `ale3dStrainOutToV` returns an inverse only without deviatoric strain; `symm`, `skew` and `vectorOfSkewMatrix` reshape the caller's array.
* (T) Constrained detector motion about the lab origin or the instrument's mean centre depends on the optimiser's path.
* `quatAverage` with exactly two quaternions raises (rotations.py:461-478); `_check_is_rmat` accepts reflections (684-693); `nullSpace` returns the transpose's null space for wide matrices.

Transforms and distortion
* (T) `validate_angle_ranges` rejects start + 2 k pi, accepts everything when start = stop; `gvec_to_xy` never checks the Bragg condition and ignores documented arguments; `PlanarDetector.angles_to_cart` recovers chi and omega without sign and misuses the crystal rotation (planar_detector.py:72-96); `makeGVector` normalises the wrong axis (xfcapi.py:151-176).
* (T) Dexela shifts across an axis are not undone; the GE inverse assumes exponents 2 and a negative strength; singular quad parameters give NaN; the `nyi` map cannot be instantiated.
* `makeOscillRotMat` reads past the end of its input; `oscill_angles_of_HKLs` leaves outputs uninitialised when the eta reference is parallel to the beam.

Crystallography
* (T) `latticeVectors` tags are case sensitive though documented otherwise; structure-matrix entries below 1.5e-8 are zeroed (unitcell.py:192, 210); `CalcAngle` reports angles below 0.26 degrees as zero (303-312).
* (T) `GenerateSGSym` accepts numbers outside 1..230; `GeneratePGSYM` returns 7 of 8 operations for d4 and d2d and 5 of 6 for d3 and c3v (symmetry.py:330-371); in Pa-3 the rules remove present reflections.
* (T) The index box of the reflection list is too small for oblique cells (unitcell.py:740-759); `getHKLs(dmin)` with dmin below the object's own is incomplete; it raises IndexError when nothing is observable; the constructor does not return for dmin <= 0.
* `phase.getMultiplicity` uses the star without Friedel pairs (phase.py:692-693); `phase.TransSpace` swaps the matrices of 'c' to 'r' and 'c' to 'd' (about 677-682); `MakeStiffnessMatrix` multiplies the stiffness by 1000 through the compliance setter; the monoclinic stiffness form is for unique axis c, the trigonal one for -3m1 in all trigonal groups; absorption length and betaij are stale after lattice or wavelength changes (unitcell.py:1440-1455, 1575-1587); `material._reset_lparms` assumes the unit of its values (material.py:241-259); `calc_lp_factor` divides by the thermal volume (538-560).
* (T) `interpolate_nearest` looks the point up among pixel centres instead of pixel edges (detector.py:1119-1120): it returns the upper left of the four surrounding pixels, at a pixel centre the pixel above, and for the top half row the bottom row of the image (index -1).  `projections/polar.py:423` uses it.
* (T) `interpolate_bilinear` accumulates in the type of the image (detector.py:2078), so integer images give truncated values; on a one-row or one-column panel it raises AssertionError; just beyond the last row or column of centres it extrapolates (by at most 1.5e-8 mm).
* (T) A panel buffer mask of all True rejects points on the right and bottom edges that are accepted without a buffer; the mask made from a border of (k + 1/2) pixels can exclude pixels whose centre the border accepts.
* `panel_buffer` may be set to a tuple or list of two numbers, but `clip_to_panel` then raises AttributeError (`.ndim`); `clip_to_panel` documents that it uses the region of interest and does not; `pixel_compton_energy_loss` ignores its origin argument (detector.py:615-642).
* (T) `CylindricalDetector.angles_to_cart` and `beam_position` use `hexrd.hedm.xrdutil.utils._project_on_detector_cylinder` and others (cylindrical_detector.py:115, 300, 311, 314), which are defined in `hexrd.hed.xrdutil.utils` only: AttributeError, unless some code has imported the old name `hexrd.xrdutil.utils`, which merges the names of both modules into one (module_map.py:182-197).
* (T) `_project_on_detector_cylinder` (hed/xrdutil/utils.py:128-145) takes directions in the sample frame as if they were in the lab frame, so positions are wrong for a turned sample; `CylindricalDetector.cart_to_angles(normalize=False)` takes the arc cosine of an unnormalised product and returns wrong angles; a direction along the axis is reported as valid with NaN coordinates.
* (T) Eight names of hexrd/file_table.tsv cannot be imported because their new file does not exist: hexrd.transforms.xf, .old_xfcapi, .new_capi.xf_new_capi, .new_capi.reference, .Makefile, .cpp_sublibrary.Makefile, hexrd.wppf.parameters, hexrd.fitting.calibration.multigrain.
* (T) Importing an old name copies names into the new module (module_map.py:182-193), so what other code sees depends on what was imported before; `CylindricalDetector.angles_to_cart` raises AttributeError until somebody imports `hexrd.xrdutil.utils`.
* setup.py uses `find_packages()`, but hexrd/core, hexrd/hedm, hexrd/laue, hexrd/core/transforms and hexrd/core/fitting have no `__init__.py` and are not found by it.
* (T) `_normalize_ranges` (indexer.py:464) compares `starts[1:] > stops[0:-2]`: the lengths differ, so four or more ranges always raise ValueError, three are accepted only if the first one given ends before the others start, and two are never checked; two nested ranges are accepted and angles inside them rejected.
* (T) paintGrid's chunk size is `min(n // nCPUs, 10)` (indexer.py:298), which is 0 for fewer orientations than processes; `Pool.map` then returns a list of None at once.
* (T) `_check_dilated` does not continue the window across eta = pi, and a NaN pixel read before the first bright one makes a spot uncounted; with the default threshold (mean and median without NaN handling) one NaN pixel disables a family.
* `find_orientations` with direct testing uses `indexer.test_orientation_FF_init` and `indexer.test_orientation_FF_reduced` (findorientations.py:783-784), which do not exist: AttributeError.
* (T) `MakeStiffnessMatrix` (unitcell.py:1105-1106) assigns the stiffness and then the compliance `inv(C)`; the compliance setter expects the inverse of TPa and sets the stiffness to `inv(inv(C)) * 1e3`, so the stored stiffness is a thousand times the one entered. A singular matrix raises after the first assignment.
* (T) The 13 monoclinic constants (unitcell.py:1890-1896) are those for a twofold axis along c (C16, C26, C36, C45 free), whereas the Laue group C2h, the lattice parameters and the space group settings have it along b (C15, C25, C35, C46 free).
* (T) The trigonal constants of Laue group D3d assume twofold axes along a; for space groups 149, 151, 153, 157, 159, 162, 163 they are perpendicular to a, where C14 = 0 and C15 is free.
* (T) `calc_volume` (material.py:534-535) returns the reference volume, without any sign, when the equation of state has no solution. With the values every new material starts with (k0 = 100, k0p = 0) this happens at every pressure from 26 GPa: the cell springs back to its uncompressed volume.
* (T) `calc_volume` only accepts compressed volumes: for a negative pressure it returns the reference volume (k' >= 4) or even a compressed one (k' < 4).
* (T) `calc_lp_at_PT` scales the reference cell by (V(P,T)/V(0,T))^(1/3), which cancels thermal expansion: at zero pressure the cell has the volume v0 at every temperature.
* (T) `vt` (material.py:439-451) integrates the coefficient alpha_t + dalpha_t_dt * T, so the coefficient at 298 K is alpha_t + 298 dalpha_t_dt, while jcpds.py:22 takes alpha_t to be the coefficient at 298 K.
* `JCPDS.matches_material` (jcpds.py:285-290) returns False or None, never True.
* (T) Assigning `U`, `charge`, `atominfo`, `atomtype` or `sgsetting` of a Material alone leaves the unit cell, the reflections and the structure factors as they were.
* (T) A refused assignment leaves a Material half updated: `sgnum = 231` raises, but the material keeps 231 with the unit cell of before. The next successful assignment of lattice or space group repairs this.
* (T) The accelerating voltage of the unit cell is 1000 times the number in the beam energy whatever its unit (material.py:265, 1256), so 12 keV and 12000 eV give different voltages.
* (T) Reflections beyond `tThMax` when the list of reflections changes are written into the exclusions and stay excluded when the limit is lifted.
* (T) Assigning `lparms` or `wavelength` of the plane data reorders the reflections but keeps the structure factors read before in the old order.
* `_newUnitcell` builds a new unit cell without the stiffness set on the old one; `set_atomdata` after a change of `sgsetting` alone rebuilds the cell but not the list of reflections; `enable_hkls_below_tth` uses `np.bool`, which recent numpy does not have.
* (T) For the space groups P312, P3112, P3212, P31m, P31c, P-31m, P-31c (149, 151, 153, 157, 159, 162, 163) the tag d3d selects twofold axes along the cell edges, so the symmetric reflections of the plane data are those of -3m1 instead of -31m: (0 1 1) is missing from the family of (1 0 1) and (1 2 -1) is counted with (2 1 1).
* (T) `getHKLID(..., master=True)` (crystallography.py:1526) reorders the exclusions, which are in the order shown already, by tThSortInv; if reflections were not given in order of angle and some are excluded it returns the id of another reflection.
* (T) `getFriedelPair` with `chiTilt`: the coefficients (crystallography.py:2069-2071) are not those of a rotation about the inclined axis (the cosine term should be -cos(chi)(cos(chi) sin(theta) - sin(chi) sin(eta) cos(theta)), the constant sin(theta) + sin(chi)(cos(chi) sin(eta) cos(theta) + sin(chi) sin(theta))); at 30 degrees and eta = 0 no result satisfies the Bragg condition.
* (T) `getFriedelPair` with `convention='fable'` reads azimuths in that convention and returns them in the other one. Results are in radians although the documentation says DEGREES.
* (T) `getFriedelPair` with one Bragg angle, azimuth or reference angle for several reflections raises ValueError: `*=` cannot enlarge an array (crystallography.py:1968, 1971, 1981).
* (T) `discreteFiber` for directions within sqrt_epsf of being opposite returns orientations that turn the crystal direction into its exact opposite, not into the sample direction (the error is at most sqrt_epsf).
* (T) `discreteFiber(ndiv=1, csym=...)` raises IndexError: the array is squeezed to one dimension. `ssym` is accepted but always ends in NotImplementedError.
* (T) `uniqueVectors` of a single vector raises IndexError (a squeezed scalar is sliced). Values are grouped by chains of gaps, so a kept vector can differ from a dropped one by up to n-1 tolerances.
* `distanceToFiber` checks `len(c) == 3` but a plain 3-vector c becomes a 3x3 array in unitVector (rotations.py:999, matrixutil.py:89) and is refused by a reshape in applySym; only a (3, 1) column works.
* (T) `quatAverageCluster` of two orientations with two equally near copies raises ValueError (two columns are reshaped to one); if the middle is a half turn it returns the zero quaternion. One or two orientations are not brought to the fundamental region, three or more are.
* (T) `run_cluster` with dbscan or ort-dbscan and more than one cluster returns as `cl` the labels of the averages, not of the orientations. With nothing above the threshold it returns an array of shape (1, 0), not (4, 0). The message says ">=" but the comparison is ">".
* (T) `run_cluster` notices an unknown algorithm only if at least two orientations are above the threshold. Without sklearn only `dbscan` falls back; `sph-dbscan` and `ort-dbscan` (and the fallback for more than 25000 orientations) end in a NameError.
* (T) `GenerateEtaOmeMaps` and `extract_polar_maps` with an azimuthal step that does not divide 360: the edges stop at the last multiple of the step, so the pixels in the rest of the circle are in no bin (everything beyond 357 degrees for a step of 7).
* (T) In `_run_histograms` a NaN pixel (for instance a masked one) makes every later azimuthal bin of that ring and frame NaN, because numpy.histogram with weights takes differences of a running sum.
* (T) `GenerateEtaOmeMaps` for several wedges: a gap that is not a multiple of the omega step is a ValueError, or, if the number of missing rows happens to fit, the rows after it are labelled with the omega of other frames.
* (T) `extract_polar_maps(active_hkls=[...])` compares a list of ids with each requested id (hedm_instrument.py:1121): with a plain Python int the comparison is just False and the request is refused as invalid, although list[int] is what GenerateEtaOmeMaps documents; it works with numpy integers only.
* (T) `generate_eta_ome_maps(hkls=array)`: `if hkls:` is a ValueError for an array of several ids and ignores the array [0].
* (T) `EtaOmeMaps` saves the reflections in order of two-theta and numbers them anew when reading, but keeps the old ids in `iHKLList`; if the reflections were not given in order of two-theta, the ids then mean other reflections.
* (T) `load_eta_ome_maps(clean=True)` returns unfiltered maps whatever `filter_maps` says: the call of the filter is inside the else branch.
* `generate_orientation_fibers` with no peak at all ends in numpy's ValueError of `hstack` of an empty list.
* (T) `getPhaseTransformationVariants` does not check that the direction lies in the plane; otherwise its matrices are not rotations and the predicted number is a ZeroDivisionError.
* (T) `fast_snip1d` convolves with zeros beyond the ends of a row, so the background of a flat row drops at its ends.
* `snip1d` on an image of integers: `zeros_like` keeps the integer type, so the background is truncated and NaNs cannot be marked.
* (T) `fit_grains(ids_to_refine=...)` selects rows of the table and then looks the grains up by their numbers in the selection: any single grain but number 0 is an IndexError, and other selections fit other grains than asked.
* (T) `fit_grains` on a table that is not numbered by row: the result under a number is that of the row with that index. A number that occurs twice gives results that depend on the number of processes.
* (T) `fit_grains` in one process overwrites the parameters in the caller's table; with several processes it does not.
* (T) `determine_valid_reflections` uses the name `grain_id`, which is not defined there: with an overlap table in the analysis directory every fit ends in a NameError.
* (T) The limit of 12 valid reflections counts saturated ones, which are not used: the fit can start with none (a ValueError) or with four, where chi squared is negative.
* (T) `refine_valid_reflections` compares measured positions with the distortion to calculated ones without it, so on a panel with a distortion larger than the tolerance spots that fit exactly are dropped. For a scan towards smaller omegas its tolerance is negative and nothing stays.
* (T) `fitGrain` matches omegas without a period (it raises if one is given). For a scan that starts above 0 (or below -180) degrees a measured omega can be more than one turn from a solution; `angularDifference` is then negative and the wrong solution is fitted. The chi squared reported afterwards uses the period, and so the other solution.
* (T) `objFuncFitGrain` looks for NaNs only on the last panel with reflections; a reflection that misses another panel makes chi squared NaN instead of raising.
* (T) `quad_fit_jac` returns the value of the parabola; the return of the Jacobian after it is never reached.
* (T) `mpeak_1d` ignores a cubic background although the guess makes four coefficients for it.
* (T) `_gaussian_pink_beam` (also in wppf) multiplies only the first of its two terms by the prefactor, so it is not symmetric for equal slopes.
* (T) The one-dimensional peaks with a width of zero give NaN at the centre.
* (T) The bounds of a split pseudo-Voigt fit take the mixture (parameter 4) for the background and the left width for both widths: a fit of an exact peak can be penalised. The background of both bounded types cannot be negative.
* (T) `fit_pk_parms_1d` knows `pink_beam_dcs`, the residuals `dcs_pinkbeam`, so the guess for one is returned as the fit and there is no guess for the other.
* (T) `estimate_pk_parms_1d` compares the width with three quarters of the number of points, so the guess depends on the unit of the positions. If the maximum is the last point the width is the whole range or a quarter of it.
* (T) `estimate_mpk_parms_1d` for pseudo-Voigt peaks takes the least of the data off the height above the background in the upper bound: on a background above about the height the guess violates it and `curve_fit`/`least_squares` refuse to start.
* `mpeak_1d` with fewer coefficients than the background needs takes parameters of the last peak for them.
* (T) `goodness_of_fit` divides by its second argument, documented as the fit.
* `direct_pk_analysis(remove_bg=False)` uses an unbound name, and its half maximum on the right is one fine point short.
* (T) `PolarView` does not compare the limits it is constructed with, only those set later; reversed ones make `warp_image` fail in numpy.
* The setters of the limits of a `PolarView` take radians, its constructor and the setters of the pixel sizes degrees.
* (T) The number of pixels is rounded, so up to half a pixel at the upper end of a range that is not a number of pixels is in no pixel.
* (T) Where panels overlap `warp_image` adds their images instead of averaging them.
* (T) The mapping cached by `cache_coordinate_map=True` is not renewed when the instrument or the limits change: the image is that of the old geometry, or numpy refuses to reshape.
* `warp_image` with interpolation does not compare the shape of an image with its panel; the numba loop reads out of bounds.
* (T) `bin_polar_view` truncates the ends of its windows: for intervals or ranges that are not a number of rows, rows outside the range count; for a range longer than the interval the start is negative and the first spectrum is NaN; half an interval at each end is in no spectrum.
* (T) `insideDihedralFZ` has no return statement for order two: for point groups 6, 7 and 8 (orthorhombic) no orientation is ever accepted, and `sampleRFZ` returns no orientation.
* (T) The zone of point groups 18-20 assumes two-fold axes along y and at 60 degrees to it, while the group of hexrd (`quatOfLaueGroup('d3d')`) has them along x and at 60 degrees to it: some orientations have two equivalents in the zone and some have none, so that a sampling misses them.
* (T) Point group 31 (-43m) is given the zone of m-3 although its Laue group is m-3m: every orientation is sampled twice.
* (T) `sampleRFZ` reads its sampling type in lower case for the number of steps but not for the shift: `'Default'` raises TypeError; after a refused assignment the object keeps the new setting and the old orientations.
* (T) A spacing below 0.037 (default) or 0.071 (special) degrees gives a negative number of steps and a ValueError of numpy.
* (T) `_quant_and_clip_confidence` does not check the frame: a reflection at the end of the scan is read outside of the stack, one before its beginning is compared with the last frame.
* (T) `multiproc_inner_loop` uses the number of all points, not the limited one: with a limit that is not a multiple of the chunk size several processes fail with ValueError where one process works.
* (T) The single process loop under MPI bounds its chunks by the number of all points instead of those of its rank: ValueError unless the chunk size divides the share of the rank.
* (T) Under MPI `test_orientations` returns the table of its own points only (`scan_detector_parm` uses the returned table as if it were complete).
* (T) A negative chunk size is accepted and leaves the table uninitialized.
* (T) `process_raw_confidence` loops to the highest grain number exclusively: that grain is not renamed and can take the name of another grain.
* (T) `ProcessController.finish` divides by the number of items: `test_orientations` without grains or without points raises ZeroDivisionError after doing all its work.
* (T) `gen_nf_test_grid_tomo` subtracts half of the number of voxels but does not add half a voxel: its points are the lower edges, not the centres (`gen_nf_test_grid` gives centres).
* (T) `gen_nf_test_grid` with reversed vertical bounds returns an empty grid without an error.
* (T) `gen_trial_exp_data` returns the names `np.tile(cut, 27 * mis_steps)` while the orientations of a grain are consecutive and (2 * mis_steps + 1)**3 in number: with two grains the names are those of other grains, with two steps there are 54 names per grain for 125 orientations.
* (T) `scan_detector_parm` leaves the experiment at the values of the last trial, and a range with steps of a millionth or less has more trials than asked for.
* (T) `_filter_hkls_eta_ome` sets `ccw = False` at the first decreasing omega range and never resets it: an increasing range listed after it keeps the reflections outside the range and drops those inside.
* (T) `simulate_rotation_series` replaces the wavelength of the plane data it is given (the source says so in a TODO); a later call without a wavelength uses the replaced one.
* (T) `simulateGVecs` calls the retired `xfcapi.mapAngle`, which always raises RuntimeError: it returns a result only if no reflection is in the ranges. It would also index the unfiltered angles with positions counted among the valid rows only.
* (T) `apply_correction_to_wavelength` reads any axis other than 'y' as 'x'.
* (T) `image_series` stores its dictionary before filling it: after an access that raises (a missing file, say), the next access returns what had been loaded by then, without an error, also after the setting is corrected. Two series for one panel leave the last.
* (T) Sections of the root are kept: exclusion parameters set after the first access to `fit_grains` are not used.
* (T) `get_exclusion_parameters` says it uses `fit_grains:tth_max` but does not; a null `sfacmin` hides a given `min_sfac_ratio`.
* (T) The flags of `fit_grains` accept any number equal to 0 or 1 and return it as it is; `seed_search:method` given as a list of one, or one character, is read as None.
* (T) `fiber_ndiv` truncates 360 / step, so the divisions are coarser than the step unless it divides 360, and there are none for a step over 360. An eta mask over 90 gives reversed ranges.
* (T) With the old placement ("a_b", "c") and ("a", "b_c") share their files; with both, names and materials differing in outer blanks, or in a blank against a dash, do; `grains.out` does not depend on the material.
* (T) `chunk_instrument` takes the centre of a chunk as start + size / 2 in a function that expects indices of pixel centres (start + (size - 1) / 2): every chunk is moved by half a pixel along both axes; a panel cut into one single chunk moves.
* (T) `chunk_instrument` sets the region of a chunk without adding the start of the panel's own region, or, without `use_roi`, keeps the panel's start for every chunk; two-element borders, meant for the edge of the panel, are kept for every chunk.
* (T) `_parse_imgser_dict` refuses stacks of images, which its description admits (`for i, image in images_in`); it takes the images of "ge10" for "ge1" if they are the only ones whose name contains it.
* (T) `angle_in_range` finds nothing in a wedge that crosses the turn, such as (170, -170); its argument `ccw` is not used.
* (T) Under an Euler convention a panel turned by exactly a half turn cannot be updated from its own parameters: `quatOfRotMat` gives the null quaternion, whose conversion raises.
* (T) `DEFAULT_EULER_CONVENTION` is a pair, but grain calibrators pass it with `**`: every grain calibrator made without an explicit convention raises TypeError when its parameters are created.
* (T) `update_material_from_params` looks for `beam_energy`; with several beams the parameters are called `<beam>_beam_energy` and the material keeps the energy it had.
* (T) `PowderCalibrator.create_lmfit_params` drops parameters whose names exist, so of two different materials with one name the second has no names and is never updated.
* (T) TARDIS: the position of plate 4 becomes distance - |position of plate 2|, which has the wrong sign for plates the other way round.
* `InstrumentCalibrator.engineering_constraints`: the message for an invalid value is built with `map(valid_settings, str)`, a TypeError; the constructor does not check the value. `StructurelessCalibrator` does not check for duplicate names. `reset_relative_constraint_params` zeroes the constraint's parameters but not lmfit's, so the next update moves the panels again.
* (T) `PatchDataWriter.dump_patch` takes any number of indices: with four the columns after them are off by one and the last measured coordinate is dropped without an error.
* (T) `GrainDataWriter` with an array of a wrong shape raises IndexError, since the assertion's message reads `array.shape[21]`.
* `GrainDataWriter_h5.dump_patch` replaces a missing `mxy` by three NaNs where two coordinates are meant.
* (T) `map_to_plane` maps points behind the origin through it: the scale along the line may be negative.
* (T) `angularPixelSize` looks at the sides of a pixel only; along a diagonal the angles may differ by more.
* (T) `PP_Eiger` and `PP_Dexela` use the list of frames only if the number of frames asked for differs from that of the file: with equal numbers `start_frame` is ignored without a message, and with it the cache is offset from its omegas.
* (T) `preprocess` looks for a panel's name anywhere in the path: a sample or directory called like a panel matches every file, and all matches write one cache file, whose options are then those of the last panel.
* `save_processed` makes `output_dir` but writes the cache to the current directory; `PP_Eiger.rawfmt` caches in `_raw_fmt` but looks for `_rawfmt`, so the file is opened on every use; `ArgumentClassesFactory.get_args` raises ValueError with the builtin `format` as its message.
* (T) `_set_peak_center_bounds` bounds no centre if there is one peak (the test is `npks > 1`), and for more peaks the upper bound of each separation is the whole window, so that the sum may leave the window.
* (T) `_set_peak_center_bounds` with all peaks within the separation raises TypeError, not the RuntimeError meant: the squeezed array has no length.
* (T) `gen_attenuation_rads` asks for `len(tdf)` although `None` is the default: TypeError without a dark field; the test itself, a length equal to None, is never true.
* (T) `threshold_and_clean_tomo_layer` loops over `np.arange(1, num_labels)`, which leaves out the last label: a single speck, or the last one, is never removed, and the last hole never closed.
* (T) `tomo_reconstruct_layer` and `crop_and_rebin_tomo_layer` cut with `[d:-d]`: for d = 0 nothing is left, and for negative d other columns than meant.
* (Cmd) `find-orientations` only looks for the file of accepted orientations, whose name has the material in it, but also writes `grains.out`, whose name has not: indexing a second material of an analysis overwrites the grains fitted to the first without --force.
* (Cmd) `fit-grains` with several analyses takes the accepted orientations of the first for all of them (`qbar` is set once, before the loop); if the first has an estimate and a later one has none, the later table is emptied and the command ends with UnboundLocalError.
* (Cmd) an estimate whose file does not exist is silently replaced by the accepted orientations.
* (Cmd) a fit that fails leaves the starting orientations in `grains.out`, and the next run takes that for an analysis that exists.
* (Cmd) `GrainData.from_grains_out` cannot read a file with a single grain (`np.loadtxt` without `ndmin=2`): IndexError.
* (Cmd) `raise (RuntimeError, "...")` is a TypeError in Python 3, and `StringIO.StringIO()` after `from io import StringIO` an AttributeError: a profiled run fails after the fit and before its results are written.
* (Zp) `zproject_sph_angles` with `source='g'`, `invert_z` and no matrix changes the caller's array; the equal-area image of (0, 0, 1) is the middle, as that of (0, 0, -1); the mask keeps z <= 0, its description says the +z hemisphere.
* (not modelled) `SphericalView`: the setters of `mapping` and `vector_type` check a value and do not store it; `warp_eta_ome_map` calls `wimgs.append[wimg]` (TypeError for several maps) and pairs masked points with unmasked pixels.
* (Phy) A misspelt layer is no error: `package.smaple_thickness = 5` is kept as an attribute that nothing reads. A refused `sample_diameter` has already been written to the layer, where nothing reads it. `absorption_length` with an int energy ends in UnboundLocalError (not modelled).
* (Hsl) `hsl2rgb` moves values nearer than 1.5e-8 to 0 or 1 in the array of the caller.
* (Jc) `JCPDS_extend.matches_material` has no line that returns True: a material that matches gets None. A blank line in a card with keys is an IndexError.
