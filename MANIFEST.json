{
 "claims": [
  {
   "property": "C01",
   "status": "proved",
   "theorems": [
    "C01_distribute_tasks_partition",
    "C01_zero_workers_raises",
    "C01_negative_workers_assign_nothing"
   ],
   "note": "full statement over Z; negative worker counts are shown to assign nothing"
  },
  {
   "property": "C02",
   "status": "partial",
   "theorems": [
    "C02_results_in_input_order",
    "C02_runs_are_bounded",
    "C02_always_returns_all_results",
    "C02_unloggable_result_deadlock_refuted",
    "C02_positional_arguments_refuted"
   ],
   "note": "input order proved for every schedule, termination and absence of deadlock for total loggable functions; positional *args are dropped and unloggable results can hang the call (findings)"
  },
  {
   "property": "C03",
   "status": "proved",
   "theorems": [
    "C03_memo_returns_function_values",
    "C03_memo_transparent",
    "C03_memo_bounded",
    "C03_memo_lru",
    "C03_memo_keeps_m_most_recent",
    "C03_memo_counters",
    "C03_exceptions_not_cached",
    "C03_zero_size_raises"
   ],
   "note": "all histories of calls and resizes, including raising calls; sequential (see C51 for threads)"
  },
  {
   "property": "C04",
   "status": "partial",
   "theorems": [
    "C04_keyword_order_irrelevant",
    "C04_keys_separate_plain_arguments_partial",
    "C04_key_collisions_refuted"
   ],
   "note": "the unrestricted claim is false (collisions exhibited for every hash); injectivity proved on plain arguments"
  },
  {
   "property": "C05",
   "status": "proved",
   "theorems": [
    "C05_chunk_stops_partition",
    "C05_chunk_sizes_even",
    "C05_bad_counts_raise"
   ],
   "note": "all chunk counts, including the rejected ones"
  },
  {
   "property": "C06",
   "status": "proved",
   "theorems": [
    "C06_chunked_prefixes",
    "C06_last_chunk_is_one_shot",
    "C06_last_average_is_one_shot",
    "C06_percentile_chunking_irrelevant"
   ],
   "note": "accumulation operator and pixel type arbitrary; float rounding is inside the operator"
  },
  {
   "property": "C07",
   "status": "partial",
   "theorems": [
    "C07_sum_iter_yields_stay_valid",
    "C07_average_iter_yields_stay_valid_partial",
    "C07_average_iter_first_yield_overwritten",
    "C07_average_iter_refuted",
    "C07_heap_model_agrees"
   ],
   "note": "false of average_iter when there is one chunk per frame (first yield is the live accumulator); proved in every other case"
  },
  {
   "property": "C08",
   "status": "partial",
   "theorems": [
    "C08_wedges_partition_frames",
    "C08_increasing_accepted",
    "C08_length_mismatch_rejected",
    "C08_decreasing_rejected_partial",
    "C08_decreasing_last_frame_refuted"
   ],
   "note": "partition, contiguity and uniformity proved for every accepted array; rejection of non-increasing metadata fails for the last frame (finding)"
  },
  {
   "property": "C09",
   "status": "proved",
   "theorems": [
    "C09_not_found_iff_outside",
    "C09_found_frame_in_first_containing_wedge",
    "C09_found_frame_contains_angle",
    "C09_found_frame_near_angle"
   ],
   "note": "exact arithmetic; exact containment for exactly uniform wedges, within accumulated tolerance otherwise"
  },
  {
   "property": "C10",
   "status": "partial",
   "theorems": [
    "C10_range_in_one_wedge",
    "C10_returned_iff_frame_meets_range",
    "C10_range_across_the_seam",
    "C10_endpoint_outside_gives_nothing",
    "C10_only_existing_frames",
    "C10_range_inside_one_frame_is_empty",
    "C10_single_frame_refuted",
    "C10_seam_tolerance_refuted"
   ],
   "note": "a range inside a single frame returns nothing (finding); all other cases proved"
  },
  {
   "property": "C100",
   "status": "partial",
   "theorems": [
    "C100_membership",
    "C100_one_or_two",
    "C100_four_refuted",
    "C100_three_refuted",
    "C100_overlap_refuted"
   ],
   "note": "exact for every accepted list of separate ranges; one or two ranges are always accepted, four or more never, three only in some orders, and overlapping ranges are accepted and misread (findings); ranges whose width is between 2 pi - 1e-8 and 2 pi count as the full circle and are excluded; real arithmetic"
  },
  {
   "property": "C101",
   "status": "proved",
   "theorems": [
    "C101_verdict",
    "C101_unique"
   ],
   "note": "real arithmetic; for ranges as in C100"
  },
  {
   "property": "C102",
   "status": "partial",
   "theorems": [
    "C102_window",
    "C102_nan",
    "C102_seam_refuted"
   ],
   "note": "the window does not continue across eta = pi (finding); with NaN pixels the outcome depends on the reading order and is characterised exactly"
  },
  {
   "property": "C103",
   "status": "proved",
   "theorems": [
    "C103_score",
    "C103_thresholds",
    "C103_threshold",
    "C103_default_threshold_refuted"
   ],
   "note": "each family must have a reflection; a NaN pixel disables the default threshold of its family (finding); real arithmetic"
  },
  {
   "property": "C104",
   "status": "partial",
   "theorems": [
    "C104_any_order",
    "C104_paint_partial",
    "C104_few_refuted"
   ],
   "note": "with fewer orientations than processes the chunk size is 0 and Pool.map returns None for every orientation (finding); Pool.map is modelled from its documented implementation in CPython"
  },
  {
   "property": "C105",
   "status": "partial",
   "theorems": [
    "C105_has_symmetry",
    "C105_complete",
    "C105_number",
    "C105_monoclinic_refuted",
    "C105_monoclinic_about_c_partial",
    "C105_trigonal_312_refuted"
   ],
   "note": "ten of the eleven Laue groups; the monoclinic constants are those of a twofold axis along c while the axis is b everywhere else in hexrd, and the trigonal ones do not suit the groups 312, 31m, -31m (findings)"
  },
  {
   "property": "C106",
   "status": "partial",
   "theorems": [
    "C106_thousandfold",
    "C106_constants_refuted",
    "C106_compliance",
    "C106_refused"
   ],
   "note": "the stiffness stored is 1000 times the matrix entered (finding); a singular matrix raises after the stiffness was replaced; numerical inversion is a parameter assumed to return inverses"
  },
  {
   "property": "C107",
   "status": "partial",
   "theorems": [
    "C107_pressure",
    "C107_reference",
    "C107_temperature",
    "C107_expansion_refuted",
    "C107_volume",
    "C107_inverse",
    "C107_no_volume",
    "C107_new_material_refuted",
    "C107_tension_refuted"
   ],
   "note": "full for pressures some compressed volume has, in particular all pressures from zero up when k' >= 4; otherwise the reference volume is returned silently, as for the values of a new material from 26 GPa, and negative pressures never expand the cell (findings); numpy.roots is a parameter assumed to find exactly the real roots"
  },
  {
   "property": "C108",
   "status": "partial",
   "theorems": [
    "C108_cell",
    "C108_pressure_only",
    "C108_present_cell",
    "C108_thermal_refuted"
   ],
   "note": "the volume is v0 V(P,T)/V(0,T), so full without a temperature; thermal expansion does not reach the cell (finding)"
  },
  {
   "property": "C109",
   "status": "partial",
   "theorems": [
    "C109_consistent",
    "C109_recovers",
    "C109_single_refuted",
    "C109_stale_refuted",
    "C109_failed_refuted",
    "C109_voltage_refuted"
   ],
   "note": "full for space group, lattice parameters, dmin, beam energy and atom data assigned as a whole, and after failures as soon as an assignment of lattice or space group succeeds; single atom attributes and the space group setting do not reach the unit cell, a failed assignment leaves the material changed, and the voltage ignores the unit of the energy (findings); reflections, two-thetas and building a unit cell are parameters"
  },
  {
   "property": "C11",
   "status": "proved",
   "theorems": [
    "C11_omegas_after_any_history",
    "C11_operations",
    "C11_wedges_survive_round_trip"
   ],
   "note": "negative step counts not modelled"
  },
  {
   "property": "C110",
   "status": "partial",
   "theorems": [
    "C110_exclusions",
    "C110_assigned",
    "C110_initial",
    "C110_limit_refuted"
   ],
   "note": "without a two-theta limit; with one, reflections beyond it become permanently excluded (finding)"
  },
  {
   "property": "C111",
   "status": "partial",
   "theorems": [
    "C111_structure_factors",
    "C111_stale_refuted"
   ],
   "note": "full for assignments through the material that rebuild the cell; stale after assignments to the plane data and after single atom attributes (findings); the value of a structure factor is a parameter"
  },
  {
   "property": "C112",
   "status": "proved",
   "theorems": [
    "C112_family",
    "C112_normals",
    "C112_same_family",
    "C112_multiplicity",
    "C112_centrosym"
   ],
   "note": "lattices of the type of the Laue group with edges up to 2^26 units; real arithmetic, the tolerance of the comparison of vectors is modelled"
  },
  {
   "property": "C113",
   "status": "partial",
   "theorems": [
    "C113_space_group_partial",
    "C113_every_reflection_once_partial",
    "C113_sideways_refuted"
   ],
   "note": "all space groups but 149, 151, 153, 157, 159, 162, 163, for which the wrong reflections are merged (finding); completeness of the list from space group 16 on, as in C91"
  },
  {
   "property": "C114",
   "status": "partial",
   "theorems": [
    "C114_index",
    "C114_master_partial",
    "C114_master_refuted"
   ],
   "note": "the index is right always; the master id when the reflections are in order of angle or none is excluded (finding)"
  },
  {
   "property": "C115",
   "status": "partial",
   "theorems": [
    "C115_pairs_partial",
    "C115_fable_refuted",
    "C115_tilt_refuted",
    "C115_single_refuted"
   ],
   "note": "full without inclination in the hexrd convention; with an inclination the equation solved is wrong, azimuths of the fable convention are returned in the hexrd one, and single values for several reflections are refused (findings); results are in radians, the documentation says degrees"
  },
  {
   "property": "C116",
   "status": "proved",
   "theorems": [
    "C116_fiber",
    "C116_complete",
    "C116_symmetry",
    "C116_spot",
    "C116_near_opposite_refuted",
    "C116_one_division_refuted"
   ],
   "note": "exact unless the two directions are nearly but not exactly opposite, then to within sqrt_epsf; one division with a symmetry is an IndexError (findings); the sign of a quaternion with zero scalar part is not modelled"
  },
  {
   "property": "C117",
   "status": "proved",
   "theorems": [
    "C117_distance",
    "C117_members"
   ],
   "note": "exact if equivalent directions are equal or at least sqrt_epsf apart, otherwise up to the tolerance of the duplicate search; c must be a column (a plain 3-vector is refused by numpy, finding)"
  },
  {
   "property": "C118",
   "status": "proved",
   "theorems": [
    "C118_unique_vectors",
    "C118_exact",
    "C118_single_refuted"
   ],
   "note": "a single vector is an IndexError (finding)"
  },
  {
   "property": "C119",
   "status": "partial",
   "theorems": [
    "C119_single",
    "C119_pair_partial",
    "C119_many",
    "C119_within",
    "C119_equivalent",
    "C119_tie_refuted",
    "C119_half_turn_refuted",
    "C119_region_refuted"
   ],
   "note": "two orientations: full if one copy is nearest, the middle is not a half turn and the angle is zero or above 10 eps (ties are a ValueError, a half turn gives the zero quaternion: findings); one or two are not brought to the fundamental region (finding)"
  },
  {
   "property": "C12",
   "status": "partial",
   "theorems": [
    "C12_length",
    "C12_frame_list_reindexes",
    "C12_keys_outside_raise",
    "C12_negative_keys",
    "C12_no_frame_list",
    "C12_operations_in_order",
    "C12_omega_follows_frames",
    "C12_base_metadata_unchanged",
    "C12_numpy_frame_list_refuted"
   ],
   "note": "proved for frame lists of Python ints; numpy integers in the frame list make access raise (finding)"
  },
  {
   "property": "C120",
   "status": "proved",
   "theorems": [
    "C120_none",
    "C120_one",
    "C120_clusters",
    "C120_unknown",
    "C120_labels_refuted"
   ],
   "note": "the clustering routines of sklearn and scipy are parameters that give well-formed labels; the labels returned after the search for duplicates are those of the averages, not of the orientations (finding)"
  },
  {
   "property": "C121",
   "status": "proved",
   "theorems": [
    "C121_one_detector",
    "C121_all_detectors",
    "C121_schedules",
    "C121_edges",
    "C121_one_bin",
    "C121_uncovered_refuted",
    "C121_conserved",
    "C121_nan_refuted"
   ],
   "note": "a step that does not divide 360 leaves the last azimuths in no bin; a NaN pixel spoils every later bin of its ring (findings)"
  },
  {
   "property": "C122",
   "status": "partial",
   "theorems": [
    "C122_rows",
    "C122_gap_refuted",
    "C122_label_refuted"
   ],
   "note": "full for frames on a common grid that spans at most one turn; a gap that is not a multiple of the step is a ValueError or gives mislabelled rows (findings)"
  },
  {
   "property": "C123",
   "status": "proved",
   "theorems": [
    "C123_requested",
    "C123_ranges",
    "C123_unknown_id",
    "C123_python_int_refuted",
    "C123_array_refuted"
   ],
   "note": "ids as plain Python integers and overrides as arrays, both allowed by the documentation, do not work (findings)"
  },
  {
   "property": "C124",
   "status": "partial",
   "theorems": [
    "C124_saved",
    "C124_ids_partial",
    "C124_ids_refuted",
    "C124_load",
    "C124_clean_refuted"
   ],
   "note": "ids keep their meaning if the reflections were given in order of two-theta; otherwise they do not (finding); maps remade with clean are not filtered (finding)"
  },
  {
   "property": "C125",
   "status": "proved",
   "theorems": [
    "C125_clean",
    "C125_median",
    "C125_all_nan",
    "C125_filter",
    "C125_filter_zero",
    "C125_filter_twice",
    "C125_requested"
   ],
   "note": "the gauss-laplace filter of scipy is a parameter"
  },
  {
   "property": "C126",
   "status": "proved",
   "theorems": [
    "C126_seeds",
    "C126_bin"
   ],
   "note": "the peak search is a parameter"
  },
  {
   "property": "C127",
   "status": "proved",
   "theorems": [
    "C127_variants",
    "C127_aligned",
    "C127_not_in_plane_refuted"
   ],
   "note": "under the documented use, direction in the plane; operations that are equal or differ by more than the tolerance; the refutation is for directions outside the plane, which the code does not notice"
  },
  {
   "property": "C128",
   "status": "proved",
   "theorems": [
    "C128_convolve",
    "C128_refused",
    "C128_bounds"
   ],
   "note": "one-dimensional arrays; the C routine is modelled from its source"
  },
  {
   "property": "C129",
   "status": "proved",
   "theorems": [
    "C129_background",
    "C129_passes",
    "C129_order",
    "C129_shift",
    "C129_fast_flat_refuted"
   ],
   "note": "floating point images and at least one pass and window; the refutation is for fast_snip1d, which takes zeros beyond the ends of a row"
  },
  {
   "property": "C13",
   "status": "proved",
   "theorems": [
    "C13_codes_are_symmetries_of_the_square",
    "C13_symmetries_form_a_group",
    "C13_flip_sequences_compose",
    "C13_flips_permute_pixels",
    "C13_identities",
    "C13_code_meanings"
   ],
   "note": "every shape, every code sequence"
  },
  {
   "property": "C130",
   "status": "partial",
   "theorems": [
    "C130_consistent",
    "C130_too_few",
    "C130_rounds",
    "C130_no_tolerance",
    "C130_each",
    "C130_schedules",
    "C130_table",
    "C130_chosen_partial",
    "C130_chosen_refuted",
    "C130_numbers_refuted",
    "C130_twice_refuted"
   ],
   "note": "proved for tables numbered by row; ids_to_refine works only for the first grains, and tables numbered otherwise are fitted from other rows (refuted)"
  },
  {
   "property": "C131",
   "status": "partial",
   "theorems": [
    "C131_valid",
    "C131_fails",
    "C131_refined_partial",
    "C131_overlap_refuted",
    "C131_saturated_refuted",
    "C131_backwards_refuted",
    "C131_distortion_refuted"
   ],
   "note": "refuted with an overlap table, for scans towards smaller omegas and on panels with a distortion; the refinement is proved for omegas at most one turn apart"
  },
  {
   "property": "C132",
   "status": "partial",
   "theorems": [
    "C132_nearer",
    "C132_nearer_partial",
    "C132_nearer_refuted",
    "C132_residuals",
    "C132_misses",
    "C132_misses_refuted",
    "C132_chisq_partial",
    "C132_chisq_refuted"
   ],
   "note": "full with an omega period; the fit itself passes none, and then the nearer omega is found only if both are within one turn of the measured one; chi squared for at least five reflections"
  },
  {
   "property": "C133",
   "status": "proved",
   "theorems": [
    "C133_gaussian",
    "C133_lorentzian",
    "C133_pvoigt",
    "C133_split",
    "C133_widths",
    "C133_single_peak",
    "C133_zero_width",
    "C133_too_few",
    "C133_step",
    "C133_gaussian2d",
    "C133_gaussian2d_rot",
    "C133_split2d_rot",
    "C133_gaussian3d"
   ],
   "note": "for non-zero widths; at width zero the value at the centre is NaN (C133_zero_width)"
  },
  {
   "property": "C134",
   "status": "partial",
   "theorems": [
    "C134_gaussian",
    "C134_lorentzian",
    "C134_line_partial",
    "C134_parabola_refuted"
   ],
   "note": "peaks and straight lines proved; quad_fit_jac returns the function instead of its derivatives (refuted)"
  },
  {
   "property": "C135",
   "status": "partial",
   "theorems": [
    "C135_sum",
    "C135_order",
    "C135_refused",
    "C135_cubic_refuted",
    "C135_mixing",
    "C135_fraction_bounds",
    "C135_pure",
    "C135_scale",
    "C135_pink_refuted"
   ],
   "note": "all backgrounds but the cubic one, which is ignored (refuted); the pink beam Gaussian is not symmetric for equal slopes (refuted)"
  },
  {
   "property": "C136",
   "status": "partial",
   "theorems": [
    "C136_residuals",
    "C136_bounded",
    "C136_bounded_split_partial",
    "C136_split_refuted",
    "C136_returned",
    "C136_objective",
    "C136_window",
    "C136_pink_names_refuted",
    "C136_estimate",
    "C136_width_partial",
    "C136_units_refuted",
    "C136_guess_partial",
    "C136_guess_refuted",
    "C136_goodness",
    "C136_goodness_order_refuted"
   ],
   "note": "the four analytic peak types; the bounds of the split type, the limit of the guessed width, the bounds of the pseudo-Voigt guess and the argument order of the goodness of fit are wrong (refuted)"
  },
  {
   "property": "C137",
   "status": "partial",
   "theorems": [
    "C137_grid",
    "C137_size",
    "C137_partition",
    "C137_middle",
    "C137_extent",
    "C137_settings",
    "C137_set",
    "C137_reversed_refuted",
    "C137_short_refuted"
   ],
   "note": "ranges that are not a number of pixels lose up to half a pixel, and the constructor accepts reversed limits (refuted)"
  },
  {
   "property": "C138",
   "status": "partial",
   "theorems": [
    "C138_sum_partial",
    "C138_mask_partial",
    "C138_mask_plain_partial",
    "C138_pad_partial",
    "C138_order_partial",
    "C138_cached",
    "C138_overlap_refuted",
    "C138_stale_refuted"
   ],
   "note": "on panels where interpolation works and images without NaN; exact rationals, the projection is a parameter; a cached mapping is not renewed when the instrument changes (refuted)"
  },
  {
   "property": "C139",
   "status": "partial",
   "theorems": [
    "C139_bins_partial",
    "C139_long",
    "C139_outside_refuted",
    "C139_wide_refuted",
    "C139_ends_refuted"
   ],
   "note": "for intervals and ranges that are numbers of rows, the range not longer than the interval; otherwise refuted"
  },
  {
   "property": "C14",
   "status": "partial",
   "theorems": [
    "C14_region_read_equals_rectangle_partial",
    "C14_optimisation_invisible_partial",
    "C14_rectangle_meaning",
    "C14_nested_processed_refuted",
    "C14_hdf5_2d_refuted"
   ],
   "note": "proved for every series that can read regions (incl. sparse frame caches); nested processed series and 2-d hdf5 raise (findings)"
  },
  {
   "property": "C140",
   "status": "partial",
   "theorems": [
    "C140_quaternion",
    "C140_inside_partial",
    "C140_ortho_refuted",
    "C140_trigonal_refuted",
    "C140_trigonal_missing_refuted",
    "C140_43m_partial",
    "C140_43m_refuted"
   ],
   "note": "to one part in 10^8, for all point groups but 6-8, 18-20 and 31, for which it is refuted"
  },
  {
   "property": "C141",
   "status": "partial",
   "theorems": [
    "C141_shells",
    "C141_outside",
    "C141_opposite",
    "C141_schedule",
    "C141_sample",
    "C141_in_zone_partial",
    "C141_inverse",
    "C141_identity",
    "C141_ortho_refuted"
   ],
   "note": "smallest of the equivalents for the groups whose zone is right; nothing is returned for orthorhombic groups (refuted); that the map preserves volumes and the quality of the polynomial fit of the angle are not proved"
  },
  {
   "property": "C142",
   "status": "partial",
   "theorems": [
    "C142_current",
    "C142_constructor",
    "C142_others",
    "C142_case_refuted",
    "C142_stale_refuted",
    "C142_refused",
    "C142_too_fine"
   ],
   "note": "after a refused assignment the settings no longer agree with the orientations (refuted)"
  },
  {
   "property": "C143",
   "status": "partial",
   "theorems": [
    "C143_confidence",
    "C143_bounds",
    "C143_order",
    "C143_unseen",
    "C143_end_refuted",
    "C143_start_refuted"
   ],
   "note": "for reflections within the frames of the scan; at its end and before its beginning it is refuted"
  },
  {
   "property": "C144",
   "status": "partial",
   "theorems": [
    "C144_complete",
    "C144_same",
    "C144_limit",
    "C144_limit_partial",
    "C144_limit_refuted",
    "C144_negative_refuted",
    "C144_nothing"
   ],
   "note": "with a limit and several processes only if the chunk size divides the limit (refuted otherwise)"
  },
  {
   "property": "C145",
   "status": "partial",
   "theorems": [
    "C145_partition",
    "C145_gather_partial",
    "C145_gather_refuted",
    "C145_returned_refuted"
   ],
   "note": "if the chunk size divides the share of a rank or all ranks have several chunks and processes (refuted otherwise); the table is not returned (refuted)"
  },
  {
   "property": "C146",
   "status": "partial",
   "theorems": [
    "C146_best",
    "C146_unique",
    "C146_remap_partial",
    "C146_remap_refuted",
    "C146_short"
   ],
   "note": "all grains but the one with the highest number in the map get their name (refuted for that one)"
  },
  {
   "property": "C147",
   "status": "partial",
   "theorems": [
    "C147_voxels",
    "C147_filled",
    "C147_layer",
    "C147_spacing",
    "C147_samples",
    "C147_tomo_partial",
    "C147_tomo_refuted",
    "C147_reversed_refuted"
   ],
   "note": "the tomographic grid is half a voxel off (refuted; what it is instead is proved)"
  },
  {
   "property": "C148",
   "status": "partial",
   "theorems": [
    "C148_orientations",
    "C148_names_partial",
    "C148_names_refuted",
    "C148_number_refuted",
    "C148_spacing"
   ],
   "note": "orientations in full; their names only without misorientations or for one grain and one step (refuted otherwise)"
  },
  {
   "property": "C149",
   "status": "proved",
   "theorems": [
    "C149_stitched",
    "C149_positions",
    "C149_errors",
    "C149_vtk"
   ],
   "note": "one spacing and lists of positions; volumes of one shape"
  },
  {
   "property": "C15",
   "status": "partial",
   "theorems": [
    "C15_dark_clamps_at_zero_partial",
    "C15_dark_unsigned",
    "C15_dark_unsigned_refuted"
   ],
   "note": "exact arithmetic proved; unsigned integer arrays wrap (finding)"
  },
  {
   "property": "C150",
   "status": "partial",
   "theorems": [
    "C150_trials",
    "C150_points",
    "C150_errors",
    "C150_restored_refuted",
    "C150_points_refuted"
   ],
   "note": "the experiment is left at the last trial (refuted; proved what it is); n+1 trials if a step is wider than a millionth (refuted otherwise)"
  },
  {
   "property": "C151",
   "status": "partial",
   "theorems": [
    "C151_filter",
    "C151_mismatch",
    "C151_senses_partial",
    "C151_senses_refuted",
    "C151_whole_turn"
   ],
   "note": "proved with the sense that is used (every range from the first decreasing one on is read clockwise); this is the sense of each range if the increasing ones come first, refuted otherwise"
  },
  {
   "property": "C152",
   "status": "partial",
   "theorems": [
    "C152_grain",
    "C152_period",
    "C152_series",
    "C152_nan",
    "C152_unchanged_refuted"
   ],
   "note": "all but the last sentence, which is refuted: the wavelength of the plane data is replaced"
  },
  {
   "property": "C153",
   "status": "partial",
   "theorems": [
    "C153_correction",
    "C153_defined",
    "C153_none",
    "C153_intercept",
    "C153_axis_refuted",
    "C153_older_refuted"
   ],
   "note": "the correction in full; an unknown axis is read as x (refuted); simulateGVecs fails whenever a reflection passes the filter (refuted)"
  },
  {
   "property": "C154",
   "status": "partial",
   "theorems": [
    "C154_algorithm",
    "C154_required",
    "C154_period",
    "C154_tolerances",
    "C154_refit",
    "C154_flags_partial",
    "C154_flags_refuted",
    "C154_tth_max",
    "C154_active_hkls",
    "C154_method_partial",
    "C154_method_refuted",
    "C154_files",
    "C154_seeds",
    "C154_exclusions",
    "C154_exclusions_refuted",
    "C154_width"
   ],
   "note": "exact characterisations; refuted where a flag may be a number equal to 0 or 1, a search method that is a list of one is read as None, a null sfacmin hides min_sfac_ratio, and tth_max has no influence on the exclusions"
  },
  {
   "property": "C155",
   "status": "partial",
   "theorems": [
    "C155_eta",
    "C155_eta_refuted",
    "C155_divisions",
    "C155_divisions_refuted",
    "C155_zero"
   ],
   "note": "in full; that the divisions are at least as fine as the step, and that masks over 90 are refused, is refuted"
  },
  {
   "property": "C156",
   "status": "partial",
   "theorems": [
    "C156_kinds",
    "C156_current",
    "C156_old_partial",
    "C156_refuted"
   ],
   "note": "the results of one analysis in full; of several with the current placement up to blanks, with the old one if underscores are in names only or in materials only; refuted otherwise, and for the grains file, which does not depend on the material"
  },
  {
   "property": "C157",
   "status": "partial",
   "theorems": [
    "C157_entry",
    "C157_images",
    "C157_failed_refuted",
    "C157_kept",
    "C157_fit",
    "C157_stale_refuted"
   ],
   "note": "what is read first is right (with several series for a panel, the last) and is kept; exact characterisation of when the exclusions were read; refuted after later settings and after a failure, when the partial list of series is returned without an error"
  },
  {
   "property": "C158",
   "status": "proved",
   "theorems": [
    "C158_order",
    "C158_cover",
    "C158_cover_all",
    "C158_disjoint",
    "C158_gap_refuted"
   ],
   "note": "for gaps that are not negative; negative ones are accepted and make chunks overlap (refuted)"
  },
  {
   "property": "C159",
   "status": "partial",
   "theorems": [
    "C159_entries",
    "C159_chunk",
    "C159_where_partial",
    "C159_relative",
    "C159_refuted"
   ],
   "note": "all but the position: every pixel is moved by half a pixel in both directions (exact statement; relative positions are kept); refuted also for the regions of panels that have one, and borders are applied to every chunk"
  },
  {
   "property": "C16",
   "status": "partial",
   "theorems": [
    "C16_sparse_round_trip_partial",
    "C16_count_fits_buffers",
    "C16_rest_of_buffer_untouched",
    "C16_tall_frame_refuted"
   ],
   "note": "the claim restricted to shapes that fit uint16 is proved in full; beyond that it is refuted"
  },
  {
   "property": "C160",
   "status": "partial",
   "theorems": [
    "C160_images",
    "C160_region",
    "C160_refuted"
   ],
   "note": "exact characterisation; stacks are refused, another panel's images are taken when its name contains this one's, and images under the panel's own name are not cut (refuted)"
  },
  {
   "property": "C161",
   "status": "proved",
   "theorems": [
    "C161_unit",
    "C161_angles_back",
    "C161_direction_back",
    "C161_short_refuted"
   ],
   "note": "in full for vectors longer than the machine epsilon; the null vector is read as a beam along -x"
  },
  {
   "property": "C162",
   "status": "proved",
   "theorems": [
    "C162_wedge",
    "C162_wrap_refuted",
    "C162_centres",
    "C162_max_tth"
   ],
   "note": "in full; a wedge whose end is not after its start is empty"
  },
  {
   "property": "C163",
   "status": "partial",
   "theorems": [
    "C163_round_trip_partial",
    "C163_panel_named",
    "C163_constrained_partial",
    "C163_half_turn_refuted"
   ],
   "note": "given exact conversions between matrices and Euler angles (scipy is external), unit beams, names that do not collide and at most ten distortion parameters; a panel turned by exactly a half turn raises under an Euler convention (refuted)"
  },
  {
   "property": "C164",
   "status": "proved",
   "theorems": [
    "C164_update_sets",
    "C164_groups_kept"
   ],
   "note": "given exact conversions of the rotations of Euler angles; half turns raise"
  },
  {
   "property": "C165",
   "status": "proved",
   "theorems": [
    "C165_history"
   ],
   "note": "in full for calibrations without relative constraints; C49 and C74 say what happens with them"
  },
  {
   "property": "C166",
   "status": "partial",
   "theorems": [
    "C166_material_params",
    "C166_material_update",
    "C166_material_round_trip",
    "C166_energy_refuted"
   ],
   "note": "all but the energy: with more than one beam there is no parameter the material looks for, and it keeps its own energy (refuted)"
  },
  {
   "property": "C167",
   "status": "partial",
   "theorems": [
    "C167_force",
    "C167_fix_grain",
    "C167_tardis_partial",
    "C167_tardis_refuted"
   ],
   "note": "grain parameters in full; the plates for plate 2 below and plate 4 above the middle; the other way round plate 4 is put where plate 2 is (refuted)"
  },
  {
   "property": "C168",
   "status": "partial",
   "theorems": [
    "C168_names",
    "C168_grain_round_trip",
    "C168_pair_refuted",
    "C168_same_name_refuted"
   ],
   "note": "names in full; the default convention (a pair) raises for every grain, and of two materials of one name the second is never updated (refuted)"
  },
  {
   "property": "C169",
   "status": "partial",
   "theorems": [
    "C169_patch_file",
    "C169_patch_aligned",
    "C169_four_indices_refuted"
   ],
   "note": "for three indices, three angles and two coordinates, given that the texts of numbers have no blanks; with four indices every later value is written one column off and the last is lost (refuted)"
  },
  {
   "property": "C17",
   "status": "proved",
   "theorems": [
    "C17_fch5_frames_read_back",
    "C17_fch5_layout",
    "C17_fch5_writes_in_bounds",
    "C17_fch5_completes"
   ],
   "note": "every number of threads and every interleaving at the granularity of locked sections and dataset writes; exceptions inside a thread not modelled"
  },
  {
   "property": "C170",
   "status": "partial",
   "theorems": [
    "C170_grain_file",
    "C170_grain_table",
    "C170_columns_refuted"
   ],
   "note": "the rows in full; a table with another number of columns raises IndexError from the assertion's message rather than AssertionError (refuted)"
  },
  {
   "property": "C171",
   "status": "proved",
   "theorems": [
    "C171_spots"
   ],
   "note": "names and the refusal of a repeated one; the datasets inside a group are not modelled"
  },
  {
   "property": "C172",
   "status": "partial",
   "theorems": [
    "C172_map",
    "C172_self",
    "C172_through",
    "C172_ray_refuted"
   ],
   "note": "in full for lines; for rays refuted: a point on the other side of the origin is mapped through it"
  },
  {
   "property": "C173",
   "status": "proved",
   "theorems": [
    "C173_sizes",
    "C173_turns",
    "C173_extent_refuted"
   ],
   "note": "in full; the sides do not bound the extent of the whole pixel, as the refutation of that stronger reading shows"
  },
  {
   "property": "C174",
   "status": "partial",
   "theorems": [
    "C174_frames_partial",
    "C174_start_refuted"
   ],
   "note": "unless as many frames are asked for as the file has and the first one is not its first: then the first frame asked for is ignored (refuted)"
  },
  {
   "property": "C175",
   "status": "partial",
   "theorems": [
    "C175_panels_partial",
    "C175_panels_refuted",
    "C175_dark"
   ],
   "note": "if exactly one panel's name is in each path; otherwise every match writes the same cache and the last one stays (refuted)"
  },
  {
   "property": "C176",
   "status": "proved",
   "theorems": [
    "C176_refine",
    "C176_bounds",
    "C176_box",
    "C176_widths",
    "C176_equal"
   ],
   "note": "in full for ties by a text; ties by explicit pairs of names are not modelled"
  },
  {
   "property": "C177",
   "status": "partial",
   "theorems": [
    "C177_close",
    "C177_separated",
    "C177_start",
    "C177_single",
    "C177_window_refuted"
   ],
   "note": "order, separation and start in full; that centres stay in the window is refuted, as a tied centre is a sum of free parameters, and a single peak gets no bounds at all"
  },
  {
   "property": "C178",
   "status": "partial",
   "theorems": [
    "C178_names",
    "C178_radiographs",
    "C178_bright",
    "C178_default_refuted"
   ],
   "note": "in full if a dark field is given; without one, the default, nothing is calculated (refuted)"
  },
  {
   "property": "C179",
   "status": "partial",
   "theorems": [
    "C179_layer_partial",
    "C179_last_refuted"
   ],
   "note": "but for the object and the hole with the last label, which are never looked at (refuted); connectivity is scipy's, a parameter here"
  },
  {
   "property": "C18",
   "status": "partial",
   "theorems": [
    "C18_npz_frames_read_back",
    "C18_npz_buffers_not_shared",
    "C18_npz_completes",
    "C18_npz_empty_series_refuted"
   ],
   "note": "every interleaving, at the granularity of dictionary updates; a series without frames cannot be written (finding)"
  },
  {
   "property": "C180",
   "status": "partial",
   "theorems": [
    "C180_sinogram_partial",
    "C180_axis",
    "C180_angles",
    "C180_full_refuted",
    "C180_crop_partial",
    "C180_crop_refuted"
   ],
   "note": "if something is cut off at both edges; if nothing is to be cut off, everything is lost (refuted)"
  },
  {
   "property": "C181",
   "status": "proved",
   "theorems": [
    "C181_rings"
   ],
   "note": "in full for beams and sources with different names"
  },
  {
   "property": "C182",
   "status": "partial",
   "theorems": [
    "C182_fit_keeps",
    "C182_find_keeps_partial",
    "C182_find_keeps_refuted",
    "C182_fit_starts_partial",
    "C182_fit_finishes",
    "C182_fit_refuses",
    "C182_own_orientations_refuted",
    "C182_unset_refuted",
    "C182_fitted_refuted"
   ],
   "note": "in full for fit-grains of one analysis; find-orientations overwrites the table of grains (refuted), and of several analyses all use the orientations of the first (refuted)"
  },
  {
   "property": "C183",
   "status": "partial",
   "theorems": [
    "C183_select",
    "C183_round_trip",
    "C183_read_partial",
    "C183_read_refuted"
   ],
   "note": "in full but for text files with fewer than two grains, which are not read (refuted)"
  },
  {
   "property": "C184",
   "status": "partial",
   "theorems": [
    "C184_start_partial"
   ],
   "note": "but for rotations with a vector part shorter than the machine epsilon, which unit_vector leaves as it is"
  },
  {
   "property": "C185",
   "status": "partial",
   "theorems": [
    "C185_projected",
    "C185_method",
    "C185_one_to_one_partial",
    "C185_area",
    "C185_poles_refuted",
    "C185_mask_refuted",
    "C185_input_partial",
    "C185_input_refuted",
    "C185_beam"
   ],
   "note": "but for the pole (0, 0, 1): both poles of the equal-area map go to the middle (refuted); the input is changed if directions are inverted (refuted); the mask keeps the other hemisphere than described (refuted)"
  },
  {
   "property": "C186",
   "status": "proved",
   "theorems": [
    "C186_last",
    "C186_made",
    "C186_radius",
    "C186_radius_assigned",
    "C186_diameter",
    "C186_refused",
    "C186_misspelt_refuted"
   ],
   "note": "a misspelt name is not refused (refuted)"
  },
  {
   "property": "C187",
   "status": "proved",
   "theorems": [
    "C187_saved",
    "C187_restored",
    "C187_made"
   ],
   "note": ""
  },
  {
   "property": "C188",
   "status": "proved",
   "theorems": [
    "C188_thickness",
    "C188_standoff",
    "C188_pinhole",
    "C188_unknown",
    "C188_absorption"
   ],
   "note": "calculate_linear_absorption_length is a parameter; energies are a float, a list or an array"
  },
  {
   "property": "C189",
   "status": "proved",
   "theorems": [
    "C189_made",
    "C189_phosphor",
    "C189_restored",
    "C189_complete"
   ],
   "note": ""
  },
  {
   "property": "C19",
   "status": "partial",
   "theorems": [
    "C19_length",
    "C19_too_many_empty_frames_raises",
    "C19_multi_frame_files",
    "C19_single_frame_files_partial",
    "C19_empty_frames_refuted",
    "C19_max_total_refuted"
   ],
   "note": "proved in full when some file contributes several frames; when every file contributes one frame, skipping and the total limit are ignored (findings)"
  },
  {
   "property": "C190",
   "status": "partial",
   "theorems": [
    "C190_colour_partial",
    "C190_round_trip_partial",
    "C190_back_partial",
    "C190_refused",
    "C190_in_range",
    "C190_input_partial",
    "C190_input_refuted"
   ],
   "note": "values nearer than 1.5e-8 to 0 or 1 are moved there, also in the caller's array (refuted); colours that are as good as grey have no hue"
  },
  {
   "property": "C191",
   "status": "proved",
   "theorems": [
    "C191_keyed",
    "C191_readable",
    "C191_blank_refuted",
    "C191_fixed",
    "C191_volume"
   ],
   "note": "float and int of words are parameters; a blank line in a file with keys is an IndexError (refuted)"
  },
  {
   "property": "C192",
   "status": "partial",
   "theorems": [
    "C192_written",
    "C192_mismatch",
    "C192_differs_partial",
    "C192_matches_refuted",
    "C192_same_refuted"
   ],
   "note": "matches_material never returns True: it returns None for a material that is the same (refuted)"
  },
  {
   "property": "C20",
   "status": "partial",
   "theorems": [
    "C20_accepted_iff_partial",
    "C20_long_header_refuted",
    "C20_frame_bytes",
    "C20_keys_outside_raise"
   ],
   "note": "a header at least as long as a frame is always rejected (finding)"
  },
  {
   "property": "C21",
   "status": "partial",
   "theorems": [
    "C21_get_present",
    "C21_get_absent",
    "C21_get_blocked",
    "C21_set_get_partial",
    "C21_set_lost_refuted",
    "C21_set_frame",
    "C21_last_assignment_wins"
   ],
   "note": "false when an enclosing block is missing or null: the assignment is silently lost (finding); proved otherwise, for every history"
  },
  {
   "property": "C22",
   "status": "proved",
   "theorems": [
    "C22_sections",
    "C22_own_value_wins",
    "C22_inherited",
    "C22_no_invention",
    "C22_no_key_lost",
    "C22_raises_iff_conflict"
   ],
   "note": "documents are trees: YAML anchors shared between places are not modelled"
  },
  {
   "property": "C23",
   "status": "partial",
   "theorems": [
    "C23_process_count_partial",
    "C23_meaning",
    "C23_invalid_setting_refuted",
    "C23_setter_ignored_refuted"
   ],
   "note": "zero processes for an invalid setting on a one-CPU machine (finding)"
  },
  {
   "property": "C24",
   "status": "partial",
   "theorems": [
    "C24_store_then_read",
    "C24_argument_is_consumed",
    "C24_shared_dictionary_refuted"
   ],
   "note": "proved for dictionaries whose nested dictionaries are distinct objects; a shared one is stored once and then empty (finding); names with '/' not modelled"
  },
  {
   "property": "C25",
   "status": "partial",
   "theorems": [
    "C25_nested_metadata_emptied_refuted",
    "C25_flat_metadata_unchanged_partial"
   ],
   "note": "false for nested metadata: the nested dictionaries are emptied (finding); proved for flat metadata"
  },
  {
   "property": "C26",
   "status": "proved",
   "theorems": [
    "C26_clip_convex_exact",
    "C26_clip_inside_both",
    "C26_clip_inside_unchanged",
    "C26_hull_contains_means"
   ],
   "note": "exact rationals instead of floating point; the hull is the dual definition, shown to contain all weighted means"
  },
  {
   "property": "C27",
   "status": "partial",
   "theorems": [
    "C27_area_is_shoelace",
    "C27_area_start_vertex",
    "C27_area_reversed",
    "C27_area_translated",
    "C27_area_cut",
    "C27_area_convex_nonneg",
    "C27_cell_area_iff_parallel_partial",
    "C27_cell_area_general_refuted"
   ],
   "note": "computeArea proved; compute_areas (vectorised) is wrong for quadrilaterals whose sides p1p2 and p0p3 are not parallel (finding), exact condition proved"
  },
  {
   "property": "C28",
   "status": "proved",
   "theorems": [
    "C28_connectivity_flat",
    "C28_connectivity_layers",
    "C28_connectivity_lower_left",
    "C28_connectivity_unit_area"
   ],
   "note": ""
  },
  {
   "property": "C29",
   "status": "partial",
   "theorems": [
    "C29_cell_index_increasing",
    "C29_cell_index_outside",
    "C29_cell_index_decreasing_partial",
    "C29_cell_index_decreasing_first_edge_refuted"
   ],
   "note": "increasing grids proved; on a decreasing grid the first edge itself gives -1 (finding), proved for all other points; exact rationals, NaN inputs not modelled"
  },
  {
   "property": "C30",
   "status": "partial",
   "theorems": [
    "C30_duplicates_kept_and_grouped",
    "C30_duplicates_removed_have_kept_partial",
    "C30_duplicates_chain_refuted"
   ],
   "note": "pairwise separation, grouping and covering proved; that each removed vector is close to a kept one is false for chains (finding), proved when closeness is transitive"
  },
  {
   "property": "C31",
   "status": "proved",
   "theorems": [
    "C31_mandel_round_trip",
    "C31_strain_round_trip",
    "C31_stress_round_trip",
    "C31_vecds_round_trip",
    "C31_inner_product"
   ],
   "note": "real arithmetic"
  },
  {
   "property": "C32",
   "status": "partial",
   "theorems": [
    "C32_unit_is_rotation",
    "C32_same_rotation_iff_sign",
    "C32_every_rotation_has_quaternion",
    "C32_product_partial",
    "C32_product_half_turn_refuted",
    "C32_product_matrices",
    "C32_fix_quat",
    "C32_inverse",
    "C32_misorientation_is_smallest",
    "C32_misorientation_symmetric",
    "C32_misorientation_invariant",
    "C32_misorientation_zero_iff_equivalent",
    "C32_one_column_refuted"
   ],
   "note": "products that are half turns give the zero quaternion and ties give extra columns (findings); everything else proved; real arithmetic"
  },
  {
   "property": "C33",
   "status": "partial",
   "theorems": [
    "C33_from_matrix_partial",
    "C33_half_turn_refuted",
    "C33_angle_axis_partial",
    "C33_exp_map",
    "C33_exp_map_quaternion_partial"
   ],
   "note": "exact half turns give the zero quaternion (finding); proved for every other rotation; the matrix-to-quaternion conversion of scipy is assumed to be right"
  },
  {
   "property": "C34",
   "status": "proved",
   "theorems": [
    "C34_laue_group",
    "C34_no_repeats",
    "C34_preserves_lattice"
   ],
   "note": "as rotations, i.e. up to the sign of the quaternions, which is chosen by rounding for half turns; also every element maps the lattice to itself"
  },
  {
   "property": "C35",
   "status": "partial",
   "theorems": [
    "C35_map_angle_partial",
    "C35_default_range",
    "C35_angles_in_range_unchanged",
    "C35_rejected_ranges",
    "C35_inexact_width_refuted"
   ],
   "note": "proved for ranges exactly one period wide; ranges accepted with a small width error are not congruent (finding)"
  },
  {
   "property": "C36",
   "status": "partial",
   "theorems": [
    "C36_angular_difference_partial",
    "C36_beyond_one_turn_refuted",
    "C36_original_function"
   ],
   "note": "negative when the angles differ by more than one turn (finding); proved otherwise, and always for angularDifference_orig"
  },
  {
   "property": "C37",
   "status": "partial",
   "theorems": [
    "C37_total",
    "C37_mismatch",
    "C37_accepts_partial",
    "C37_near_partial",
    "C37_full_circle",
    "C37_start_refuted",
    "C37_empty_arc_refuted"
   ],
   "note": "the start of an arc plus whole turns is rejected, and arcs shorter than the tolerance accept every angle (findings); proved otherwise, with the tolerance after the end only"
  },
  {
   "property": "C38",
   "status": "partial",
   "theorems": [
    "C38_omegas_partial",
    "C38_no_strain",
    "C38_each",
    "C38_angles_partial",
    "C38_collinear_refuted"
   ],
   "note": "G and beam longer than machine epsilon; two theta is not set when the eta reference is along the beam (finding); a G for which the condition does not depend on omega fails an assertion in the code; real arithmetic"
  },
  {
   "property": "C39",
   "status": "proved",
   "theorems": [
    "C39_sample",
    "C39_detector",
    "C39_binary",
    "C39_expmap",
    "C39_beam",
    "C39_beam_error"
   ],
   "note": "real arithmetic; collinear means a cross product not longer than machine epsilon"
  },
  {
   "property": "C40",
   "status": "partial",
   "theorems": [
    "C40_points_partial",
    "C40_points_each_partial",
    "C40_no_point",
    "C40_default_beam",
    "C40_mismatch",
    "C40_cannot_diffract_refuted",
    "C40_strain_refuted"
   ],
   "note": "unit G vectors; rays parallel to the plane may give infinities; the Bragg condition is not checked and the strain and B matrix arguments are ignored (findings)"
  },
  {
   "property": "C41",
   "status": "partial",
   "theorems": [
    "C41_round_trip_partial",
    "C41_back_partial",
    "C41_each",
    "C41_unique",
    "C41_back_reflection_refuted"
   ],
   "note": "points farther than the square root of machine epsilon; exact back-reflection gives NaN (finding); beams closer than machine epsilon to the z axis, but not on it, excluded"
  },
  {
   "property": "C42",
   "status": "partial",
   "theorems": [
    "C42_dexela_displacement",
    "C42_dexela_partial",
    "C42_dexela_quadrants",
    "C42_dexela_refuted",
    "C42_quad",
    "C42_quad_map",
    "C42_quad_singular_refuted",
    "C42_ge_law",
    "C42_ge_partial",
    "C42_polar_coordinates",
    "C42_ge_nan_refuted",
    "C42_ge_exponents_refuted",
    "C42_trivial",
    "C42_get_mapping"
   ],
   "note": "quadrant shifts that cross an axis are not undone, the radial inverse assumes exponents 2 and negative strength and is NaN otherwise (findings); proved exactly on the rest, in real arithmetic"
  },
  {
   "property": "C43",
   "status": "proved",
   "theorems": [
    "C43_direct_lattice",
    "C43_reciprocal_lattice",
    "C43_fable_frame",
    "C43_parameters_from_vectors",
    "C43_when_a_cell_exists",
    "C43_rejected",
    "C43_capitals_refuted"
   ],
   "note": "real arithmetic; the documented case-insensitivity of the tag is refuted (finding)"
  },
  {
   "property": "C44",
   "status": "partial",
   "theorems": [
    "C44_mask_reads_back",
    "C44_indices_hide",
    "C44_ranges_hide",
    "C44_lists_match_mask_partial",
    "C44_exclude_flags",
    "C44_exclusions_follow_reflections",
    "C44_mask_lists_refuted",
    "C44_indices_mask_refuted",
    "C44_no_angle_refuted"
   ],
   "note": "masks read back, indices and ranges hide, exclusions follow the reflections: proved for every order; mask and lists disagree for orders that are not their own inverse (finding)"
  },
  {
   "property": "C45",
   "status": "partial",
   "theorems": [
    "C45_rhombohedral_round_trip",
    "C45_integer_iff_obverse",
    "C45_hexagonal_round_trip",
    "C45_float_not_obverse_refuted"
   ],
   "note": "proved in exact arithmetic; in binary64 the hexagonal round trip fails for some reflections that are not obverse (finding)"
  },
  {
   "property": "C46",
   "status": "partial",
   "theorems": [
    "C46_conversion_meaning",
    "C46_round_trip",
    "C46_composition",
    "C46_sum_unit_independent",
    "C46_convertible_partial",
    "C46_nanometre_refuted"
   ],
   "note": "round trips, composition and sums proved; nanometres cannot be converted to anything (finding); real arithmetic"
  },
  {
   "property": "C47",
   "status": "partial",
   "theorems": [
    "C47_rename_no_collision",
    "C47_validate_detects_exactly_duplicates",
    "C47_renamed_list_validates",
    "C47_mapping_refuted"
   ],
   "note": "the returned mapping is complete only when the old names are distinct (proved; refuted otherwise)"
  },
  {
   "property": "C48",
   "status": "partial",
   "theorems": [
    "C48_distortion_slots_partial",
    "C48_eleven_refuted",
    "C48_substring_refuted"
   ],
   "note": "false from eleven parameters on (lexicographic order) and for detector names that end in another detector's name (findings); proved otherwise; shipped distortions have at most eight parameters"
  },
  {
   "property": "C49",
   "status": "proved",
   "theorems": [
    "C49_system_moves_rigidly",
    "C49_groups_move_rigidly",
    "C49_distances_and_orientations_kept",
    "C49_zero_change_system",
    "C49_zero_change_groups",
    "C49_conversion_exact",
    "C49_every_orientation_is_a_tilt",
    "C49_both_conversions_agree"
   ],
   "note": "real arithmetic; scipy's rotation-vector conversion and from_euler are assumed right; rotations by less than ten machine epsilons are excluded"
  },
  {
   "property": "C50",
   "status": "proved",
   "theorems": [
    "C50_hkl_string_round_trip",
    "C50_hkl_string_injective"
   ],
   "note": "proved for lists of integers of any length"
  },
  {
   "property": "C51",
   "status": "partial",
   "theorems": [
    "C51_concurrent_values_correct",
    "C51_concurrent_no_error_with_room_partial",
    "C51_concurrent_error_refuted"
   ],
   "note": "values are right under every schedule; KeyError is possible unless the cache has room for every call"
  },
  {
   "property": "C52",
   "status": "partial",
   "theorems": [
    "C52_cached_array_protected",
    "C52_cached_tuple_refuted"
   ],
   "note": "holds for a bare ndarray result; false for arrays inside a returned tuple"
  },
  {
   "property": "C53",
   "status": "partial",
   "theorems": [
    "C53_stale_pixel_angles_refuted",
    "C53_fresh_objects_current_partial"
   ],
   "note": "false: distortion objects are keyed by identity, so an in-place parameter change is not seen"
  },
  {
   "property": "C54",
   "status": "proved",
   "theorems": [
    "C54_add_row",
    "C54_add_column_is_transposed_add_row",
    "C54_index_range"
   ],
   "note": ""
  },
  {
   "property": "C55",
   "status": "partial",
   "theorems": [
    "C55_npz_metadata_round_trip_partial",
    "C55_reserved_metadata_refuted"
   ],
   "note": "metadata keys with reserved names overwrite frames (finding); proved otherwise"
  },
  {
   "property": "C56",
   "status": "proved",
   "theorems": [
    "C56_lazy_load_safe",
    "C56_lazy_load_no_deadlock",
    "C56_lazy_load_bounded",
    "C56_raises_only_if_a_load_failed"
   ],
   "note": "sequentially consistent shared memory"
  },
  {
   "property": "C57",
   "status": "partial",
   "theorems": [
    "C57_file_cache_transparent_partial",
    "C57_same_stat_refuted"
   ],
   "note": "needs mtime/size to identify the content; stale otherwise"
  },
  {
   "property": "C58",
   "status": "partial",
   "theorems": [
    "C58_iteration_yields_every_frame",
    "C58_errors_propagate_partial",
    "C58_index_error_swallowed_refuted"
   ],
   "note": "an IndexError raised by a frame access silently ends the iteration (finding)"
  },
  {
   "property": "C59",
   "status": "proved",
   "theorems": [
    "C59_concurrent_raw_reads",
    "C59_no_deadlock"
   ],
   "note": "interleaving at lock, seek, read, unlock granularity"
  },
  {
   "property": "C60",
   "status": "partial",
   "theorems": [
    "C60_save_reopen_partial",
    "C60_single_section_refuted",
    "C60_cleared_value_refuted"
   ],
   "note": "false for a single section (finding); proved for two or more"
  },
  {
   "property": "C61",
   "status": "proved",
   "theorems": [
    "C61_store_terminates"
   ],
   "note": ""
  },
  {
   "property": "C62",
   "status": "proved",
   "theorems": [
    "C62_tolerance_grid_uniform",
    "C62_tolerance_grid_one_sided"
   ],
   "note": "exact rationals; positive widths"
  },
  {
   "property": "C63",
   "status": "partial",
   "theorems": [
    "C63_grain_picks_round_trip_partial",
    "C63_grain_repeated_reflection_refuted",
    "C63_powder_picks_round_trip"
   ],
   "note": "powder proved; grain picks of a repeated reflection collapse (finding)"
  },
  {
   "property": "C64",
   "status": "partial",
   "theorems": [
    "C64_tth_tol_setter_refuted",
    "C64_tth_tol_setter_none_refuted"
   ],
   "note": "refuted: the setter ignores its argument (finding)"
  },
  {
   "property": "C65",
   "status": "partial",
   "theorems": [
    "C65_count_after_exclusions_partial",
    "C65_count_after_lattice_change",
    "C65_maximum_refuted",
    "C65_raised_maximum_refuted"
   ],
   "note": "stale after assigning the maximum two-theta (finding); proved after exclusions (no maximum) and after every lattice change"
  },
  {
   "property": "C66",
   "status": "partial",
   "theorems": [
    "C66_lookup_by_id_partial",
    "C66_lookup_refuted"
   ],
   "note": "wrong reflection tested for exclusion when the order is not the identity (finding)"
  },
  {
   "property": "C67",
   "status": "proved",
   "theorems": [
    "C67_merged_ranges",
    "C67_merged_every_reflection_once",
    "C67_merged_covers"
   ],
   "note": "exact rationals; NaN ranges not modelled; no listed reflection raises IndexError"
  },
  {
   "property": "C68",
   "status": "partial",
   "theorems": [
    "C68_direction_indices_inverse",
    "C68_direction_reversed_refuted",
    "C68_redundant_index_refuted",
    "C68_many_directions_refuted"
   ],
   "note": "the unscaled conversions are inverse; the scaling may reverse the direction and the redundant index is wrong (findings)"
  },
  {
   "property": "C69",
   "status": "partial",
   "theorems": [
    "C69_axial_vector",
    "C69_decomposition",
    "C69_normal_projection",
    "C69_ale3d_inverse_refuted",
    "C69_argument_shape_refuted"
   ],
   "note": "the ALE3D inverse stretch is wrong except without deviatoric strain, and 2-d arguments are reshaped in place (findings); the rest proved"
  },
  {
   "property": "C70",
   "status": "proved",
   "theorems": [
    "C70_best_rotation",
    "C70_accepts_exactly_equal_lengths"
   ],
   "note": "given a singular value decomposition with its defining equations (numpy.linalg.svd is external); real arithmetic"
  },
  {
   "property": "C71",
   "status": "proved",
   "theorems": [
    "C71_block_diagonal",
    "C71_dyads"
   ],
   "note": "every size"
  },
  {
   "property": "C72",
   "status": "proved",
   "theorems": [
    "C72_fundamental_region",
    "C72_same_angle_for_equivalents"
   ],
   "note": "no sample symmetry (not implemented in the code); real arithmetic"
  },
  {
   "property": "C73",
   "status": "partial",
   "theorems": [
    "C73_change_of_units_partial",
    "C73_capitals_refuted"
   ],
   "note": "other capitalisations are accepted but read as radians (finding)"
  },
  {
   "property": "C74",
   "status": "partial",
   "theorems": [
    "C74_system_mean_centre",
    "C74_group_mean_centre",
    "C74_origin_refuted",
    "C74_group_instrument_centre_refuted"
   ],
   "note": "proved about mean centres; about the laboratory origin, and for groups about the instrument's mean centre, the result depends on the path (finding)"
  },
  {
   "property": "C75",
   "status": "proved",
   "theorems": [
    "C75_dvec",
    "C75_gvec"
   ],
   "note": "real arithmetic; the vectorised and scalar loops have the same body"
  },
  {
   "property": "C76",
   "status": "partial",
   "theorems": [
    "C76_points_partial",
    "C76_angles_back_partial",
    "C76_points_back_partial",
    "C76_angles",
    "C76_negative_omega_refuted",
    "C76_dvecs"
   ],
   "note": "chi and omega between 0 and 180 degrees and default crystal orientation; wrong otherwise (finding); no distortion"
  },
  {
   "property": "C77",
   "status": "partial",
   "theorems": [
    "C77_on_beam",
    "C77_facing_partial",
    "C77_upstream_refuted"
   ],
   "note": "an upstream panel also gets a position (finding); nothing is returned for panels seen from behind"
  },
  {
   "property": "C78",
   "status": "partial",
   "theorems": [
    "C78_unit_refuted"
   ],
   "note": "false: the rows of the array are normalised, not its columns (finding)"
  },
  {
   "property": "C79",
   "status": "partial",
   "theorems": [
    "C79_rotated",
    "C79_one_row_refuted"
   ],
   "note": "arrays of length one are rejected although documented (finding)"
  },
  {
   "property": "C80",
   "status": "proved",
   "theorems": [
    "C80_smallest"
   ],
   "note": "real arithmetic, unit quaternions"
  },
  {
   "property": "C81",
   "status": "proved",
   "theorems": [
    "C81_plane_normals_and_spacings",
    "C81_bragg_angles",
    "C81_strain_bounds"
   ],
   "note": "real arithmetic; normals for spacings below 1/ten_epsf; at exactly 180 degrees NaN is returned"
  },
  {
   "property": "C82",
   "status": "partial",
   "theorems": [
    "C82_metric_tensors",
    "C82_structure_matrices_partial",
    "C82_near_right_angle_refuted"
   ],
   "note": "entries of the structure matrices below 1.5e-8 are zeroed (finding); exact otherwise"
  },
  {
   "property": "C83",
   "status": "partial",
   "theorems": [
    "C83_spaces_partial",
    "C83_unknown_space",
    "C83_products_and_lengths",
    "C83_angles_partial",
    "C83_small_angles_refuted",
    "C83_cross_products_partial"
   ],
   "note": "angles below 0.26 degrees are reported as zero (finding); Cartesian conversions need structure matrices without tiny entries; without vol_divide the cross product is off by the cell volume"
  },
  {
   "property": "C84",
   "status": "proved",
   "theorems": [
    "C84_rhombohedral_parameters",
    "C84_rhombohedral_lattice",
    "C84_direction_to_cartesian"
   ],
   "note": "real arithmetic"
  },
  {
   "property": "C85",
   "status": "partial",
   "theorems": [
    "C85_space_group_operations",
    "C85_centring",
    "C85_second_origin",
    "C85_handedness",
    "C85_range_refuted"
   ],
   "note": "proved for the 230 groups; numbers -236..0 and 231..237 are accepted too (finding)"
  },
  {
   "property": "C86",
   "status": "partial",
   "theorems": [
    "C86_point_and_laue_groups",
    "C86_symmorphic_partial"
   ],
   "note": "the flag is shown at the tabulated origin; that no other origin makes a non-symmorphic group translation free is not shown"
  },
  {
   "property": "C87",
   "status": "partial",
   "theorems": [
    "C87_named_point_groups_partial",
    "C87_named_point_groups_refuted",
    "C87_supergroups_refuted"
   ],
   "note": "d4, d2d, d3 and c3v come out one operation short (finding)"
  },
  {
   "property": "C88",
   "status": "partial",
   "theorems": [
    "C88_allowed_reflections_partial",
    "C88_order",
    "C88_absent_removed",
    "C88_pyrite_refuted"
   ],
   "note": "exact for 229 groups and both settings; in Pa-3 (205) present 0kl and h0l reflections are removed too (finding)"
  },
  {
   "property": "C89",
   "status": "partial",
   "theorems": [
    "C89_extinction",
    "C89_allowed_are_observable_partial",
    "C89_structure_factor_of_removed"
   ],
   "note": "real arithmetic; Pa-3 excepted as in C88"
  },
  {
   "property": "C90",
   "status": "proved",
   "theorems": [
    "C90_reciprocal_operations",
    "C90_star",
    "C90_multiplicity"
   ],
   "note": "real arithmetic, reciprocal space, lattice parameters that fit the space group"
  },
  {
   "property": "C91",
   "status": "partial",
   "theorems": [
    "C91_listed",
    "C91_ties",
    "C91_complete_partial",
    "C91_oblique_partial",
    "C91_nothing_refuted",
    "C91_positive_dmin",
    "C91_dmin_refuted",
    "C91_monoclinic_refuted",
    "C91_smaller_dmin_refuted"
   ],
   "note": "complete for space groups 16-230 when dmin is not below the object's own dmin; for oblique cells the index box can be too small (finding, with witness); IndexError instead of an empty list; the constructor never returns for dmin <= 0; order up to the 1e-8 rounding of the sort key"
  },
  {
   "property": "C92",
   "status": "proved",
   "theorems": [
    "C92_round_trip",
    "C92_pixel"
   ],
   "note": "exact rationals; no distortion"
  },
  {
   "property": "C93",
   "status": "partial",
   "theorems": [
    "C93_clip",
    "C93_total",
    "C93_stored_mask",
    "C93_border_mask",
    "C93_border_mask_refuted",
    "C93_full_mask_refuted"
   ],
   "note": "clipping is exact; the mask made from borders differs when a border is a half-odd number of pixels, and a mask of all True rejects edge points that no buffer accepts (findings)"
  },
  {
   "property": "C94",
   "status": "partial",
   "theorems": [
    "C94_bilinear_partial",
    "C94_blend",
    "C94_strip_refuted",
    "C94_integer_refuted",
    "C94_single_row_refuted"
   ],
   "note": "except in a strip of width 1.5e-8 mm beyond the last row and column of centres; integer images are truncated and one-row panels raise (findings)"
  },
  {
   "property": "C95",
   "status": "partial",
   "theorems": [
    "C95_nearest_refuted",
    "C95_upper_left_partial"
   ],
   "note": "false: the upper left of the four surrounding pixels is taken, and the first row wraps to the last (finding); what is returned is characterised exactly"
  },
  {
   "property": "C96",
   "status": "proved",
   "theorems": [
    "C96_positions",
    "C96_sheet",
    "C96_unbend",
    "C96_normals"
   ],
   "note": "real arithmetic, no distortion"
  },
  {
   "property": "C97",
   "status": "partial",
   "theorems": [
    "C97_angles",
    "C97_pixel_angles",
    "C97_intersection",
    "C97_projection_partial",
    "C97_round_trip_partial",
    "C97_beam_position_partial",
    "C97_angles_to_cart_refuted",
    "C97_beam_position_refuted",
    "C97_turned_sample_refuted",
    "C97_unnormalised_refuted"
   ],
   "note": "angles_to_cart and beam_position look up functions in a module that does not define them and raise AttributeError (finding); once the names are there, an unturned sample inside the tube is right and a turned sample is wrong (finding); cart_to_angles with normalize=False is wrong (finding)"
  },
  {
   "property": "C98",
   "status": "proved",
   "theorems": [
    "C98_same_module",
    "C98_nothing_lost",
    "C98_again",
    "C98_merged_modules",
    "C98_merged_names",
    "C98_chosen"
   ],
   "note": "for tables in which no old name maps to an old name (true of hexrd's table, see C99); what executing a file defines is a parameter, imports made while a file is executed and the binding of a submodule in its package are not modelled"
  },
  {
   "property": "C99",
   "status": "partial",
   "theorems": [
    "C99_old_names_partial",
    "C99_gone_refuted",
    "C99_import_changes_program_refuted"
   ],
   "note": "140 of the 148 names; the files of eight others do not exist (finding); importing an old name adds names to new modules, which makes the cylindrical detector work or fail depending on what was imported (finding)"
  }
 ]
}
