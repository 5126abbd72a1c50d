M("C01","proved",["C01_distribute_tasks_partition","C01_zero_workers_raises","C01_negative_workers_assign_nothing"],"full statement over Z; negative worker counts are shown to assign nothing")
M("C05","proved",["C05_chunk_stops_partition","C05_chunk_sizes_even","C05_bad_counts_raise"],"all chunk counts, including the rejected ones")
M("C06","proved",["C06_chunked_prefixes","C06_last_chunk_is_one_shot","C06_last_average_is_one_shot","C06_percentile_chunking_irrelevant"],"accumulation operator and pixel type arbitrary; float rounding is inside the operator")
M("C07","partial",["C07_sum_iter_yields_stay_valid","C07_average_iter_yields_stay_valid_partial","C07_average_iter_first_yield_overwritten","C07_average_iter_refuted","C07_heap_model_agrees"],"false of average_iter when there is one chunk per frame (first yield is the live accumulator); proved in every other case")
M("C03","proved",["C03_memo_returns_function_values","C03_memo_transparent","C03_memo_bounded","C03_memo_lru","C03_memo_keeps_m_most_recent","C03_memo_counters","C03_exceptions_not_cached","C03_zero_size_raises"],"all histories of calls and resizes, including raising calls; sequential (see C51 for threads)")
M("C04","partial",["C04_keyword_order_irrelevant","C04_keys_separate_plain_arguments_partial","C04_key_collisions_refuted"],"the unrestricted claim is false (collisions exhibited for every hash); injectivity proved on plain arguments")
M("C51","partial",["C51_concurrent_values_correct","C51_concurrent_no_error_with_room_partial","C51_concurrent_error_refuted"],"values are right under every schedule; KeyError is possible unless the cache has room for every call")
M("C52","partial",["C52_cached_array_protected","C52_cached_tuple_refuted"],"holds for a bare ndarray result; false for arrays inside a returned tuple")
M("C53","partial",["C53_stale_pixel_angles_refuted","C53_fresh_objects_current_partial"],"false: distortion objects are keyed by identity, so an in-place parameter change is not seen")
M("C02","partial",["C02_results_in_input_order","C02_runs_are_bounded","C02_always_returns_all_results","C02_unloggable_result_deadlock_refuted","C02_positional_arguments_refuted"],"input order proved for every schedule, termination and absence of deadlock for total loggable functions; positional *args are dropped and unloggable results can hang the call (findings)")
M("C08","partial",["C08_wedges_partition_frames","C08_increasing_accepted","C08_length_mismatch_rejected","C08_decreasing_rejected_partial","C08_decreasing_last_frame_refuted"],"partition, contiguity and uniformity proved for every accepted array; rejection of non-increasing metadata fails for the last frame (finding)")
M("C09","proved",["C09_not_found_iff_outside","C09_found_frame_in_first_containing_wedge","C09_found_frame_contains_angle","C09_found_frame_near_angle"],"exact arithmetic; exact containment for exactly uniform wedges, within accumulated tolerance otherwise")
M("C10","partial",["C10_range_in_one_wedge","C10_returned_iff_frame_meets_range","C10_range_across_the_seam","C10_endpoint_outside_gives_nothing","C10_only_existing_frames","C10_range_inside_one_frame_is_empty","C10_single_frame_refuted","C10_seam_tolerance_refuted"],"a range inside a single frame returns nothing (finding); all other cases proved")
M("C11","proved",["C11_omegas_after_any_history","C11_operations","C11_wedges_survive_round_trip"],"negative step counts not modelled")
M("C12","partial",["C12_length","C12_frame_list_reindexes","C12_keys_outside_raise","C12_negative_keys","C12_no_frame_list","C12_operations_in_order","C12_omega_follows_frames","C12_base_metadata_unchanged","C12_numpy_frame_list_refuted"],"proved for frame lists of Python ints; numpy integers in the frame list make access raise (finding)")
M("C13","proved",["C13_codes_are_symmetries_of_the_square","C13_symmetries_form_a_group","C13_flip_sequences_compose","C13_flips_permute_pixels","C13_identities","C13_code_meanings"],"every shape, every code sequence")
M("C14","partial",["C14_region_read_equals_rectangle_partial","C14_optimisation_invisible_partial","C14_rectangle_meaning","C14_nested_processed_refuted","C14_hdf5_2d_refuted"],"proved for every series that can read regions (incl. sparse frame caches); nested processed series and 2-d hdf5 raise (findings)")
M("C15","partial",["C15_dark_clamps_at_zero_partial","C15_dark_unsigned","C15_dark_unsigned_refuted"],"exact arithmetic proved; unsigned integer arrays wrap (finding)")
M("C54","proved",["C54_add_row","C54_add_column_is_transposed_add_row","C54_index_range"],"")
M("C16","partial",["C16_sparse_round_trip_partial","C16_count_fits_buffers","C16_rest_of_buffer_untouched","C16_tall_frame_refuted"],"the claim restricted to shapes that fit uint16 is proved in full; beyond that it is refuted")
M("C17","proved",["C17_fch5_frames_read_back","C17_fch5_layout","C17_fch5_writes_in_bounds","C17_fch5_completes"],"every number of threads and every interleaving at the granularity of locked sections and dataset writes; exceptions inside a thread not modelled")
M("C18","partial",["C18_npz_frames_read_back","C18_npz_buffers_not_shared","C18_npz_completes","C18_npz_empty_series_refuted"],"every interleaving, at the granularity of dictionary updates; a series without frames cannot be written (finding)")
M("C55","partial",["C55_npz_metadata_round_trip_partial","C55_reserved_metadata_refuted"],"metadata keys with reserved names overwrite frames (finding); proved otherwise")
M("C56","proved",["C56_lazy_load_safe","C56_lazy_load_no_deadlock","C56_lazy_load_bounded","C56_raises_only_if_a_load_failed"],"sequentially consistent shared memory")
M("C57","partial",["C57_file_cache_transparent_partial","C57_same_stat_refuted"],"needs mtime/size to identify the content; stale otherwise")
M("C19","partial",["C19_length","C19_too_many_empty_frames_raises","C19_multi_frame_files","C19_single_frame_files_partial","C19_empty_frames_refuted","C19_max_total_refuted"],"proved in full when some file contributes several frames; when every file contributes one frame, skipping and the total limit are ignored (findings)")
M("C20","partial",["C20_accepted_iff_partial","C20_long_header_refuted","C20_frame_bytes","C20_keys_outside_raise"],"a header at least as long as a frame is always rejected (finding)")
M("C58","partial",["C58_iteration_yields_every_frame","C58_errors_propagate_partial","C58_index_error_swallowed_refuted"],"an IndexError raised by a frame access silently ends the iteration (finding)")
M("C59","proved",["C59_concurrent_raw_reads","C59_no_deadlock"],"interleaving at lock, seek, read, unlock granularity")
M("C21","partial",["C21_get_present","C21_get_absent","C21_get_blocked","C21_set_get_partial","C21_set_lost_refuted","C21_set_frame","C21_last_assignment_wins"],"false when an enclosing block is missing or null: the assignment is silently lost (finding); proved otherwise, for every history")
M("C22","proved",["C22_sections","C22_own_value_wins","C22_inherited","C22_no_invention","C22_no_key_lost","C22_raises_iff_conflict"],"documents are trees: YAML anchors shared between places are not modelled")
M("C23","partial",["C23_process_count_partial","C23_meaning","C23_invalid_setting_refuted","C23_setter_ignored_refuted"],"zero processes for an invalid setting on a one-CPU machine (finding)")
M("C60","partial",["C60_save_reopen_partial","C60_single_section_refuted","C60_cleared_value_refuted"],"false for a single section (finding); proved for two or more")
M("C24","partial",["C24_store_then_read","C24_argument_is_consumed","C24_shared_dictionary_refuted"],"proved for dictionaries whose nested dictionaries are distinct objects; a shared one is stored once and then empty (finding); names with '/' not modelled")
M("C25","partial",["C25_nested_metadata_emptied_refuted","C25_flat_metadata_unchanged_partial"],"false for nested metadata: the nested dictionaries are emptied (finding); proved for flat metadata")
M("C61","proved",["C61_store_terminates"],"")
M("C26","proved",["C26_clip_convex_exact", "C26_clip_inside_both", "C26_clip_inside_unchanged", "C26_hull_contains_means"],"exact rationals instead of floating point; the hull is the dual definition, shown to contain all weighted means")
M("C27","partial",["C27_area_is_shoelace", "C27_area_start_vertex", "C27_area_reversed", "C27_area_translated", "C27_area_cut", "C27_area_convex_nonneg", "C27_cell_area_iff_parallel_partial", "C27_cell_area_general_refuted"],"computeArea proved; compute_areas (vectorised) is wrong for quadrilaterals whose sides p1p2 and p0p3 are not parallel (finding), exact condition proved")
M("C28","proved",["C28_connectivity_flat", "C28_connectivity_layers", "C28_connectivity_lower_left", "C28_connectivity_unit_area"],"")
M("C29","partial",["C29_cell_index_increasing", "C29_cell_index_outside", "C29_cell_index_decreasing_partial", "C29_cell_index_decreasing_first_edge_refuted"],"increasing grids proved; on a decreasing grid the first edge itself gives -1 (finding), proved for all other points; exact rationals, NaN inputs not modelled")
M("C62","proved",["C62_tolerance_grid_uniform", "C62_tolerance_grid_one_sided"],"exact rationals; positive widths")
M("C30","partial",["C30_duplicates_kept_and_grouped", "C30_duplicates_removed_have_kept_partial", "C30_duplicates_chain_refuted"],"pairwise separation, grouping and covering proved; that each removed vector is close to a kept one is false for chains (finding), proved when closeness is transitive")
M("C47","partial",["C47_rename_no_collision","C47_validate_detects_exactly_duplicates","C47_renamed_list_validates","C47_mapping_refuted"],"the returned mapping is complete only when the old names are distinct (proved; refuted otherwise)")
M("C48","partial",["C48_distortion_slots_partial","C48_eleven_refuted","C48_substring_refuted"],"false from eleven parameters on (lexicographic order) and for detector names that end in another detector's name (findings); proved otherwise; shipped distortions have at most eight parameters")
M("C50","proved",["C50_hkl_string_round_trip","C50_hkl_string_injective"],"proved for lists of integers of any length")
M("C63","partial",["C63_grain_picks_round_trip_partial","C63_grain_repeated_reflection_refuted","C63_powder_picks_round_trip"],"powder proved; grain picks of a repeated reflection collapse (finding)")
M("C64","partial",["C64_tth_tol_setter_refuted","C64_tth_tol_setter_none_refuted"],"refuted: the setter ignores its argument (finding)")
M("C44","partial",["C44_mask_reads_back","C44_indices_hide","C44_ranges_hide","C44_lists_match_mask_partial","C44_exclude_flags","C44_exclusions_follow_reflections","C44_mask_lists_refuted","C44_indices_mask_refuted","C44_no_angle_refuted"],"masks read back, indices and ranges hide, exclusions follow the reflections: proved for every order; mask and lists disagree for orders that are not their own inverse (finding)")
M("C65","partial",["C65_count_after_exclusions_partial","C65_count_after_lattice_change","C65_maximum_refuted","C65_raised_maximum_refuted"],"stale after assigning the maximum two-theta (finding); proved after exclusions (no maximum) and after every lattice change")
M("C66","partial",["C66_lookup_by_id_partial","C66_lookup_refuted"],"wrong reflection tested for exclusion when the order is not the identity (finding)")
M("C67","proved",["C67_merged_ranges","C67_merged_every_reflection_once","C67_merged_covers"],"exact rationals; NaN ranges not modelled; no listed reflection raises IndexError")
M("C45","partial",["C45_rhombohedral_round_trip","C45_integer_iff_obverse","C45_hexagonal_round_trip","C45_float_not_obverse_refuted"],"proved in exact arithmetic; in binary64 the hexagonal round trip fails for some reflections that are not obverse (finding)")
M("C46","partial",["C46_conversion_meaning","C46_round_trip","C46_composition","C46_sum_unit_independent","C46_convertible_partial","C46_nanometre_refuted"],"round trips, composition and sums proved; nanometres cannot be converted to anything (finding); real arithmetic")
M("C68","partial",["C68_direction_indices_inverse","C68_direction_reversed_refuted","C68_redundant_index_refuted","C68_many_directions_refuted"],"the unscaled conversions are inverse; the scaling may reverse the direction and the redundant index is wrong (findings)")
M("C31","proved",["C31_mandel_round_trip","C31_strain_round_trip","C31_stress_round_trip","C31_vecds_round_trip","C31_inner_product"],"real arithmetic")
M("C69","partial",["C69_axial_vector","C69_decomposition","C69_normal_projection","C69_ale3d_inverse_refuted","C69_argument_shape_refuted"],"the ALE3D inverse stretch is wrong except without deviatoric strain, and 2-d arguments are reshaped in place (findings); the rest proved")
M("C70","proved",["C70_best_rotation","C70_accepts_exactly_equal_lengths"],"given a singular value decomposition with its defining equations (numpy.linalg.svd is external); real arithmetic")
M("C71","proved",["C71_block_diagonal","C71_dyads"],"every size")
M("C32","partial",["C32_unit_is_rotation","C32_same_rotation_iff_sign","C32_every_rotation_has_quaternion","C32_product_partial","C32_product_half_turn_refuted","C32_product_matrices","C32_fix_quat","C32_inverse","C32_misorientation_is_smallest","C32_misorientation_symmetric","C32_misorientation_invariant","C32_misorientation_zero_iff_equivalent","C32_one_column_refuted"],"products that are half turns give the zero quaternion and ties give extra columns (findings); everything else proved; real arithmetic")
M("C33","partial",["C33_from_matrix_partial","C33_half_turn_refuted","C33_angle_axis_partial","C33_exp_map","C33_exp_map_quaternion_partial"],"exact half turns give the zero quaternion (finding); proved for every other rotation; the matrix-to-quaternion conversion of scipy is assumed to be right")
M("C34","proved",["C34_laue_group","C34_no_repeats","C34_preserves_lattice"],"as rotations, i.e. up to the sign of the quaternions, which is chosen by rounding for half turns; also every element maps the lattice to itself")
M("C35","partial",["C35_map_angle_partial","C35_default_range","C35_angles_in_range_unchanged","C35_rejected_ranges","C35_inexact_width_refuted"],"proved for ranges exactly one period wide; ranges accepted with a small width error are not congruent (finding)")
M("C36","partial",["C36_angular_difference_partial","C36_beyond_one_turn_refuted","C36_original_function"],"negative when the angles differ by more than one turn (finding); proved otherwise, and always for angularDifference_orig")
M("C72","proved",["C72_fundamental_region","C72_same_angle_for_equivalents"],"no sample symmetry (not implemented in the code); real arithmetic")
M("C73","partial",["C73_change_of_units_partial","C73_capitals_refuted"],"other capitalisations are accepted but read as radians (finding)")
M("C49","proved",["C49_system_moves_rigidly","C49_groups_move_rigidly","C49_distances_and_orientations_kept","C49_zero_change_system","C49_zero_change_groups","C49_conversion_exact","C49_every_orientation_is_a_tilt","C49_both_conversions_agree"],"real arithmetic; scipy's rotation-vector conversion and from_euler are assumed right; rotations by less than ten machine epsilons are excluded")
M("C74","partial",["C74_system_mean_centre","C74_group_mean_centre","C74_origin_refuted","C74_group_instrument_centre_refuted"],"proved about mean centres; about the laboratory origin, and for groups about the instrument's mean centre, the result depends on the path (finding)")
M("C37","partial",["C37_total","C37_mismatch","C37_accepts_partial","C37_near_partial","C37_full_circle","C37_start_refuted","C37_empty_arc_refuted"],"the start of an arc plus whole turns is rejected, and arcs shorter than the tolerance accept every angle (findings); proved otherwise, with the tolerance after the end only")
M("C38","partial",["C38_omegas_partial","C38_no_strain","C38_each","C38_angles_partial","C38_collinear_refuted"],"G and beam longer than machine epsilon; two theta is not set when the eta reference is along the beam (finding); a G for which the condition does not depend on omega fails an assertion in the code; real arithmetic")
M("C39","proved",["C39_sample","C39_detector","C39_binary","C39_expmap","C39_beam","C39_beam_error"],"real arithmetic; collinear means a cross product not longer than machine epsilon")
M("C40","partial",["C40_points_partial","C40_points_each_partial","C40_no_point","C40_default_beam","C40_mismatch","C40_cannot_diffract_refuted","C40_strain_refuted"],"unit G vectors; rays parallel to the plane may give infinities; the Bragg condition is not checked and the strain and B matrix arguments are ignored (findings)")
M("C41","partial",["C41_round_trip_partial","C41_back_partial","C41_each","C41_unique","C41_back_reflection_refuted"],"points farther than the square root of machine epsilon; exact back-reflection gives NaN (finding); beams closer than machine epsilon to the z axis, but not on it, excluded")
M("C75","proved",["C75_dvec","C75_gvec"],"real arithmetic; the vectorised and scalar loops have the same body")
M("C76","partial",["C76_points_partial","C76_angles_back_partial","C76_points_back_partial","C76_angles","C76_negative_omega_refuted","C76_dvecs"],"chi and omega between 0 and 180 degrees and default crystal orientation; wrong otherwise (finding); no distortion")
M("C77","partial",["C77_on_beam","C77_facing_partial","C77_upstream_refuted"],"an upstream panel also gets a position (finding); nothing is returned for panels seen from behind")
M("C78","partial",["C78_unit_refuted"],"false: the rows of the array are normalised, not its columns (finding)")
M("C79","partial",["C79_rotated","C79_one_row_refuted"],"arrays of length one are rejected although documented (finding)")
M("C80","proved",["C80_smallest"],"real arithmetic, unit quaternions")
M("C42","partial",["C42_dexela_displacement","C42_dexela_partial","C42_dexela_quadrants","C42_dexela_refuted","C42_quad","C42_quad_map","C42_quad_singular_refuted","C42_ge_law","C42_ge_partial","C42_polar_coordinates","C42_ge_nan_refuted","C42_ge_exponents_refuted","C42_trivial","C42_get_mapping"],"quadrant shifts that cross an axis are not undone, the radial inverse assumes exponents 2 and negative strength and is NaN otherwise (findings); proved exactly on the rest, in real arithmetic")
M("C43","proved",["C43_direct_lattice","C43_reciprocal_lattice","C43_fable_frame","C43_parameters_from_vectors","C43_when_a_cell_exists","C43_rejected","C43_capitals_refuted"],"real arithmetic; the documented case-insensitivity of the tag is refuted (finding)")
M("C81","proved",["C81_plane_normals_and_spacings","C81_bragg_angles","C81_strain_bounds"],"real arithmetic; normals for spacings below 1/ten_epsf; at exactly 180 degrees NaN is returned")
M("C82","partial",["C82_metric_tensors","C82_structure_matrices_partial","C82_near_right_angle_refuted"],"entries of the structure matrices below 1.5e-8 are zeroed (finding); exact otherwise")
M("C83","partial",["C83_spaces_partial","C83_unknown_space","C83_products_and_lengths","C83_angles_partial","C83_small_angles_refuted","C83_cross_products_partial"],"angles below 0.26 degrees are reported as zero (finding); Cartesian conversions need structure matrices without tiny entries; without vol_divide the cross product is off by the cell volume")
M("C84","proved",["C84_rhombohedral_parameters","C84_rhombohedral_lattice","C84_direction_to_cartesian"],"real arithmetic")
M("C85","partial",["C85_space_group_operations","C85_centring","C85_second_origin","C85_handedness","C85_range_refuted"],"proved for the 230 groups; numbers -236..0 and 231..237 are accepted too (finding)")
M("C86","partial",["C86_point_and_laue_groups","C86_symmorphic_partial"],"the flag is shown at the tabulated origin; that no other origin makes a non-symmorphic group translation free is not shown")
M("C87","partial",["C87_named_point_groups_partial","C87_named_point_groups_refuted","C87_supergroups_refuted"],"d4, d2d, d3 and c3v come out one operation short (finding)")
M("C88","partial",["C88_allowed_reflections_partial","C88_order","C88_absent_removed","C88_pyrite_refuted"],"exact for 229 groups and both settings; in Pa-3 (205) present 0kl and h0l reflections are removed too (finding)")
M("C89","partial",["C89_extinction","C89_allowed_are_observable_partial","C89_structure_factor_of_removed"],"real arithmetic; Pa-3 excepted as in C88")
M("C90","proved",["C90_reciprocal_operations","C90_star","C90_multiplicity"],"real arithmetic, reciprocal space, lattice parameters that fit the space group")
M("C91","partial",["C91_listed","C91_ties","C91_complete_partial","C91_oblique_partial","C91_nothing_refuted","C91_positive_dmin","C91_dmin_refuted","C91_monoclinic_refuted","C91_smaller_dmin_refuted"],"complete for space groups 16-230 when dmin is not below the object's own dmin; for oblique cells the index box can be too small (finding, with witness); IndexError instead of an empty list; the constructor never returns for dmin <= 0; order up to the 1e-8 rounding of the sort key")
M("C92","proved",["C92_round_trip","C92_pixel"],"exact rationals; no distortion")
M("C93","partial",["C93_clip","C93_total","C93_stored_mask","C93_border_mask","C93_border_mask_refuted","C93_full_mask_refuted"],"clipping is exact; the mask made from borders differs when a border is a half-odd number of pixels, and a mask of all True rejects edge points that no buffer accepts (findings)")
M("C94","partial",["C94_bilinear_partial","C94_blend","C94_strip_refuted","C94_integer_refuted","C94_single_row_refuted"],"except in a strip of width 1.5e-8 mm beyond the last row and column of centres; integer images are truncated and one-row panels raise (findings)")
M("C95","partial",["C95_nearest_refuted","C95_upper_left_partial"],"false: the upper left of the four surrounding pixels is taken, and the first row wraps to the last (finding); what is returned is characterised exactly")
M("C96","proved",["C96_positions","C96_sheet","C96_unbend","C96_normals"],"real arithmetic, no distortion")
M("C97","partial",["C97_angles","C97_pixel_angles","C97_intersection","C97_projection_partial","C97_round_trip_partial","C97_beam_position_partial","C97_angles_to_cart_refuted","C97_beam_position_refuted","C97_turned_sample_refuted","C97_unnormalised_refuted"],"angles_to_cart and beam_position look up functions in a module that does not define them and raise AttributeError (finding); once the names are there, an unturned sample inside the tube is right and a turned sample is wrong (finding); cart_to_angles with normalize=False is wrong (finding)")
M("C98","proved",["C98_same_module","C98_nothing_lost","C98_again","C98_merged_modules","C98_merged_names","C98_chosen"],"for tables in which no old name maps to an old name (true of hexrd's table, see C99); what executing a file defines is a parameter, imports made while a file is executed and the binding of a submodule in its package are not modelled")
M("C99","partial",["C99_old_names_partial","C99_gone_refuted","C99_import_changes_program_refuted"],"140 of the 148 names; the files of eight others do not exist (finding); importing an old name adds names to new modules, which makes the cylindrical detector work or fail depending on what was imported (finding)")
M("C100","partial",["C100_membership","C100_one_or_two","C100_four_refuted","C100_three_refuted","C100_overlap_refuted"],"exact for every accepted list of separate ranges; one or two ranges are always accepted, four or more never, three only in some orders, and overlapping ranges are accepted and misread (findings); ranges whose width is between 2 pi - 1e-8 and 2 pi count as the full circle and are excluded; real arithmetic")
M("C101","proved",["C101_verdict","C101_unique"],"real arithmetic; for ranges as in C100")
M("C102","partial",["C102_window","C102_nan","C102_seam_refuted"],"the window does not continue across eta = pi (finding); with NaN pixels the outcome depends on the reading order and is characterised exactly")
M("C103","proved",["C103_score","C103_thresholds","C103_threshold","C103_default_threshold_refuted"],"each family must have a reflection; a NaN pixel disables the default threshold of its family (finding); real arithmetic")
M("C104","partial",["C104_any_order","C104_paint_partial","C104_few_refuted"],"with fewer orientations than processes the chunk size is 0 and Pool.map returns None for every orientation (finding); Pool.map is modelled from its documented implementation in CPython")
M("C105","partial",["C105_has_symmetry","C105_complete","C105_number","C105_monoclinic_refuted","C105_monoclinic_about_c_partial","C105_trigonal_312_refuted"],"ten of the eleven Laue groups; the monoclinic constants are those of a twofold axis along c while the axis is b everywhere else in hexrd, and the trigonal ones do not suit the groups 312, 31m, -31m (findings)")
M("C106","partial",["C106_thousandfold","C106_constants_refuted","C106_compliance","C106_refused"],"the stiffness stored is 1000 times the matrix entered (finding); a singular matrix raises after the stiffness was replaced; numerical inversion is a parameter assumed to return inverses")
M("C107","partial",["C107_pressure","C107_reference","C107_temperature","C107_expansion_refuted","C107_volume","C107_inverse","C107_no_volume","C107_new_material_refuted","C107_tension_refuted"],"full for pressures some compressed volume has, in particular all pressures from zero up when k' >= 4; otherwise the reference volume is returned silently, as for the values of a new material from 26 GPa, and negative pressures never expand the cell (findings); numpy.roots is a parameter assumed to find exactly the real roots")
M("C108","partial",["C108_cell","C108_pressure_only","C108_present_cell","C108_thermal_refuted"],"the volume is v0 V(P,T)/V(0,T), so full without a temperature; thermal expansion does not reach the cell (finding)")
M("C109","partial",["C109_consistent","C109_recovers","C109_single_refuted","C109_stale_refuted","C109_failed_refuted","C109_voltage_refuted"],"full for space group, lattice parameters, dmin, beam energy and atom data assigned as a whole, and after failures as soon as an assignment of lattice or space group succeeds; single atom attributes and the space group setting do not reach the unit cell, a failed assignment leaves the material changed, and the voltage ignores the unit of the energy (findings); reflections, two-thetas and building a unit cell are parameters")
M("C110","partial",["C110_exclusions","C110_assigned","C110_initial","C110_limit_refuted"],"without a two-theta limit; with one, reflections beyond it become permanently excluded (finding)")
M("C111","partial",["C111_structure_factors","C111_stale_refuted"],"full for assignments through the material that rebuild the cell; stale after assignments to the plane data and after single atom attributes (findings); the value of a structure factor is a parameter")
M("C112","proved",["C112_family","C112_normals","C112_same_family","C112_multiplicity","C112_centrosym"],"lattices of the type of the Laue group with edges up to 2^26 units; real arithmetic, the tolerance of the comparison of vectors is modelled")
M("C113","partial",["C113_space_group_partial","C113_every_reflection_once_partial","C113_sideways_refuted"],"all space groups but 149, 151, 153, 157, 159, 162, 163, for which the wrong reflections are merged (finding); completeness of the list from space group 16 on, as in C91")
M("C114","partial",["C114_index","C114_master_partial","C114_master_refuted"],"the index is right always; the master id when the reflections are in order of angle or none is excluded (finding)")
M("C115","partial",["C115_pairs_partial","C115_fable_refuted","C115_tilt_refuted","C115_single_refuted"],"full without inclination in the hexrd convention; with an inclination the equation solved is wrong, azimuths of the fable convention are returned in the hexrd one, and single values for several reflections are refused (findings); results are in radians, the documentation says degrees")
M("C116","proved",["C116_fiber","C116_complete","C116_symmetry","C116_spot","C116_near_opposite_refuted","C116_one_division_refuted"],"exact unless the two directions are nearly but not exactly opposite, then to within sqrt_epsf; one division with a symmetry is an IndexError (findings); the sign of a quaternion with zero scalar part is not modelled")
M("C117","proved",["C117_distance","C117_members"],"exact if equivalent directions are equal or at least sqrt_epsf apart, otherwise up to the tolerance of the duplicate search; c must be a column (a plain 3-vector is refused by numpy, finding)")
M("C118","proved",["C118_unique_vectors","C118_exact","C118_single_refuted"],"a single vector is an IndexError (finding)")
M("C119","partial",["C119_single","C119_pair_partial","C119_many","C119_within","C119_equivalent","C119_tie_refuted","C119_half_turn_refuted","C119_region_refuted"],"two orientations: full if one copy is nearest, the middle is not a half turn and the angle is zero or above 10 eps (ties are a ValueError, a half turn gives the zero quaternion: findings); one or two are not brought to the fundamental region (finding)")
M("C120","proved",["C120_none","C120_one","C120_clusters","C120_unknown","C120_labels_refuted"],"the clustering routines of sklearn and scipy are parameters that give well-formed labels; the labels returned after the search for duplicates are those of the averages, not of the orientations (finding)")
M("C121","proved",["C121_one_detector","C121_all_detectors","C121_schedules","C121_edges","C121_one_bin","C121_uncovered_refuted","C121_conserved","C121_nan_refuted"],"a step that does not divide 360 leaves the last azimuths in no bin; a NaN pixel spoils every later bin of its ring (findings)")
M("C122","partial",["C122_rows","C122_gap_refuted","C122_label_refuted"],"full for frames on a common grid that spans at most one turn; a gap that is not a multiple of the step is a ValueError or gives mislabelled rows (findings)")
M("C123","proved",["C123_requested","C123_ranges","C123_unknown_id","C123_python_int_refuted","C123_array_refuted"],"ids as plain Python integers and overrides as arrays, both allowed by the documentation, do not work (findings)")
M("C124","partial",["C124_saved","C124_ids_partial","C124_ids_refuted","C124_load","C124_clean_refuted"],"ids keep their meaning if the reflections were given in order of two-theta; otherwise they do not (finding); maps remade with clean are not filtered (finding)")
M("C125","proved",["C125_clean","C125_median","C125_all_nan","C125_filter","C125_filter_zero","C125_filter_twice","C125_requested"],"the gauss-laplace filter of scipy is a parameter")
M("C126","proved",["C126_seeds","C126_bin"],"the peak search is a parameter")
M("C127","proved",["C127_variants","C127_aligned","C127_not_in_plane_refuted"],"under the documented use, direction in the plane; operations that are equal or differ by more than the tolerance; the refutation is for directions outside the plane, which the code does not notice")
M("C128","proved",["C128_convolve","C128_refused","C128_bounds"],"one-dimensional arrays; the C routine is modelled from its source")
M("C129","proved",["C129_background","C129_passes","C129_order","C129_shift","C129_fast_flat_refuted"],"floating point images and at least one pass and window; the refutation is for fast_snip1d, which takes zeros beyond the ends of a row")
M("C130","partial",["C130_consistent","C130_too_few","C130_rounds","C130_no_tolerance","C130_each","C130_schedules","C130_table","C130_chosen_partial","C130_chosen_refuted","C130_numbers_refuted","C130_twice_refuted"],"proved for tables numbered by row; ids_to_refine works only for the first grains, and tables numbered otherwise are fitted from other rows (refuted)")
M("C131","partial",["C131_valid","C131_fails","C131_refined_partial","C131_overlap_refuted","C131_saturated_refuted","C131_backwards_refuted","C131_distortion_refuted"],"refuted with an overlap table, for scans towards smaller omegas and on panels with a distortion; the refinement is proved for omegas at most one turn apart")
M("C132","partial",["C132_nearer","C132_nearer_partial","C132_nearer_refuted","C132_residuals","C132_misses","C132_misses_refuted","C132_chisq_partial","C132_chisq_refuted"],"full with an omega period; the fit itself passes none, and then the nearer omega is found only if both are within one turn of the measured one; chi squared for at least five reflections")
M("C133","proved",["C133_gaussian","C133_lorentzian","C133_pvoigt","C133_split","C133_widths","C133_single_peak","C133_zero_width","C133_too_few","C133_step","C133_gaussian2d","C133_gaussian2d_rot","C133_split2d_rot","C133_gaussian3d"],"for non-zero widths; at width zero the value at the centre is NaN (C133_zero_width)")
M("C134","partial",["C134_gaussian","C134_lorentzian","C134_line_partial","C134_parabola_refuted"],"peaks and straight lines proved; quad_fit_jac returns the function instead of its derivatives (refuted)")
M("C135","partial",["C135_sum","C135_order","C135_refused","C135_cubic_refuted","C135_mixing","C135_fraction_bounds","C135_pure","C135_scale","C135_pink_refuted"],"all backgrounds but the cubic one, which is ignored (refuted); the pink beam Gaussian is not symmetric for equal slopes (refuted)")
M("C136","partial",["C136_residuals","C136_bounded","C136_bounded_split_partial","C136_split_refuted","C136_returned","C136_objective","C136_window","C136_pink_names_refuted","C136_estimate","C136_width_partial","C136_units_refuted","C136_guess_partial","C136_guess_refuted","C136_goodness","C136_goodness_order_refuted"],"the four analytic peak types; the bounds of the split type, the limit of the guessed width, the bounds of the pseudo-Voigt guess and the argument order of the goodness of fit are wrong (refuted)")
M("C137","partial",["C137_grid","C137_size","C137_partition","C137_middle","C137_extent","C137_settings","C137_set","C137_reversed_refuted","C137_short_refuted"],"ranges that are not a number of pixels lose up to half a pixel, and the constructor accepts reversed limits (refuted)")
M("C138","partial",["C138_sum_partial","C138_mask_partial","C138_mask_plain_partial","C138_pad_partial","C138_order_partial","C138_cached","C138_overlap_refuted","C138_stale_refuted"],"on panels where interpolation works and images without NaN; exact rationals, the projection is a parameter; a cached mapping is not renewed when the instrument changes (refuted)")
M("C139","partial",["C139_bins_partial","C139_long","C139_outside_refuted","C139_wide_refuted","C139_ends_refuted"],"for intervals and ranges that are numbers of rows, the range not longer than the interval; otherwise refuted")
M("C140","partial",["C140_quaternion","C140_inside_partial","C140_ortho_refuted","C140_trigonal_refuted","C140_trigonal_missing_refuted","C140_43m_partial","C140_43m_refuted"],"to one part in 10^8, for all point groups but 6-8, 18-20 and 31, for which it is refuted")
M("C141","partial",["C141_shells","C141_outside","C141_opposite","C141_schedule","C141_sample","C141_in_zone_partial","C141_inverse","C141_identity","C141_ortho_refuted"],"smallest of the equivalents for the groups whose zone is right; nothing is returned for orthorhombic groups (refuted); that the map preserves volumes and the quality of the polynomial fit of the angle are not proved")
M("C142","partial",["C142_current","C142_constructor","C142_others","C142_case_refuted","C142_stale_refuted","C142_refused","C142_too_fine"],"after a refused assignment the settings no longer agree with the orientations (refuted)")
M("C143","partial",["C143_confidence","C143_bounds","C143_order","C143_unseen","C143_end_refuted","C143_start_refuted"],"for reflections within the frames of the scan; at its end and before its beginning it is refuted")
M("C144","partial",["C144_complete","C144_same","C144_limit","C144_limit_partial","C144_limit_refuted","C144_negative_refuted","C144_nothing"],"with a limit and several processes only if the chunk size divides the limit (refuted otherwise)")
M("C145","partial",["C145_partition","C145_gather_partial","C145_gather_refuted","C145_returned_refuted"],"if the chunk size divides the share of a rank or all ranks have several chunks and processes (refuted otherwise); the table is not returned (refuted)")
M("C146","partial",["C146_best","C146_unique","C146_remap_partial","C146_remap_refuted","C146_short"],"all grains but the one with the highest number in the map get their name (refuted for that one)")
M("C147","partial",["C147_voxels","C147_filled","C147_layer","C147_spacing","C147_samples","C147_tomo_partial","C147_tomo_refuted","C147_reversed_refuted"],"the tomographic grid is half a voxel off (refuted; what it is instead is proved)")
M("C148","partial",["C148_orientations","C148_names_partial","C148_names_refuted","C148_number_refuted","C148_spacing"],"orientations in full; their names only without misorientations or for one grain and one step (refuted otherwise)")
M("C149","proved",["C149_stitched","C149_positions","C149_errors","C149_vtk"],"one spacing and lists of positions; volumes of one shape")
M("C150","partial",["C150_trials","C150_points","C150_errors","C150_restored_refuted","C150_points_refuted"],"the experiment is left at the last trial (refuted; proved what it is); n+1 trials if a step is wider than a millionth (refuted otherwise)")
M("C151","partial",["C151_filter","C151_mismatch","C151_senses_partial","C151_senses_refuted","C151_whole_turn"],"proved with the sense that is used (every range from the first decreasing one on is read clockwise); this is the sense of each range if the increasing ones come first, refuted otherwise")
M("C152","partial",["C152_grain","C152_period","C152_series","C152_nan","C152_unchanged_refuted"],"all but the last sentence, which is refuted: the wavelength of the plane data is replaced")
M("C153","partial",["C153_correction","C153_defined","C153_none","C153_intercept","C153_axis_refuted","C153_older_refuted"],"the correction in full; an unknown axis is read as x (refuted); simulateGVecs fails whenever a reflection passes the filter (refuted)")
M("C154","partial",["C154_algorithm","C154_required","C154_period","C154_tolerances","C154_refit","C154_flags_partial","C154_flags_refuted","C154_tth_max","C154_active_hkls","C154_method_partial","C154_method_refuted","C154_files","C154_seeds","C154_exclusions","C154_exclusions_refuted","C154_width"],"exact characterisations; refuted where a flag may be a number equal to 0 or 1, a search method that is a list of one is read as None, a null sfacmin hides min_sfac_ratio, and tth_max has no influence on the exclusions")
M("C155","partial",["C155_eta","C155_eta_refuted","C155_divisions","C155_divisions_refuted","C155_zero"],"in full; that the divisions are at least as fine as the step, and that masks over 90 are refused, is refuted")
M("C156","partial",["C156_kinds","C156_current","C156_old_partial","C156_refuted"],"the results of one analysis in full; of several with the current placement up to blanks, with the old one if underscores are in names only or in materials only; refuted otherwise, and for the grains file, which does not depend on the material")
M("C157","partial",["C157_entry","C157_images","C157_failed_refuted","C157_kept","C157_fit","C157_stale_refuted"],"what is read first is right (with several series for a panel, the last) and is kept; exact characterisation of when the exclusions were read; refuted after later settings and after a failure, when the partial list of series is returned without an error")
M("C158","proved",["C158_order","C158_cover","C158_cover_all","C158_disjoint","C158_gap_refuted"],"for gaps that are not negative; negative ones are accepted and make chunks overlap (refuted)")
M("C159","partial",["C159_entries","C159_chunk","C159_where_partial","C159_relative","C159_refuted"],"all but the position: every pixel is moved by half a pixel in both directions (exact statement; relative positions are kept); refuted also for the regions of panels that have one, and borders are applied to every chunk")
M("C160","partial",["C160_images","C160_region","C160_refuted"],"exact characterisation; stacks are refused, another panel's images are taken when its name contains this one's, and images under the panel's own name are not cut (refuted)")
M("C161","proved",["C161_unit","C161_angles_back","C161_direction_back","C161_short_refuted"],"in full for vectors longer than the machine epsilon; the null vector is read as a beam along -x")
M("C162","proved",["C162_wedge","C162_wrap_refuted","C162_centres","C162_max_tth"],"in full; a wedge whose end is not after its start is empty")
M("C163","partial",["C163_round_trip_partial","C163_panel_named","C163_constrained_partial","C163_half_turn_refuted"],"given exact conversions between matrices and Euler angles (scipy is external), unit beams, names that do not collide and at most ten distortion parameters; a panel turned by exactly a half turn raises under an Euler convention (refuted)")
M("C164","proved",["C164_update_sets","C164_groups_kept"],"given exact conversions of the rotations of Euler angles; half turns raise")
M("C165","proved",["C165_history"],"in full for calibrations without relative constraints; C49 and C74 say what happens with them")
M("C166","partial",["C166_material_params","C166_material_update","C166_material_round_trip","C166_energy_refuted"],"all but the energy: with more than one beam there is no parameter the material looks for, and it keeps its own energy (refuted)")
M("C167","partial",["C167_force","C167_fix_grain","C167_tardis_partial","C167_tardis_refuted"],"grain parameters in full; the plates for plate 2 below and plate 4 above the middle; the other way round plate 4 is put where plate 2 is (refuted)")
M("C168","partial",["C168_names","C168_grain_round_trip","C168_pair_refuted","C168_same_name_refuted"],"names in full; the default convention (a pair) raises for every grain, and of two materials of one name the second is never updated (refuted)")
M("C169","partial",["C169_patch_file","C169_patch_aligned","C169_four_indices_refuted"],"for three indices, three angles and two coordinates, given that the texts of numbers have no blanks; with four indices every later value is written one column off and the last is lost (refuted)")
M("C170","partial",["C170_grain_file","C170_grain_table","C170_columns_refuted"],"the rows in full; a table with another number of columns raises IndexError from the assertion's message rather than AssertionError (refuted)")
M("C171","proved",["C171_spots"],"names and the refusal of a repeated one; the datasets inside a group are not modelled")
M("C172","partial",["C172_map","C172_self","C172_through","C172_ray_refuted"],"in full for lines; for rays refuted: a point on the other side of the origin is mapped through it")
M("C173","proved",["C173_sizes","C173_turns","C173_extent_refuted"],"in full; the sides do not bound the extent of the whole pixel, as the refutation of that stronger reading shows")
M("C174","partial",["C174_frames_partial","C174_start_refuted"],"unless as many frames are asked for as the file has and the first one is not its first: then the first frame asked for is ignored (refuted)")
M("C175","partial",["C175_panels_partial","C175_panels_refuted","C175_dark"],"if exactly one panel's name is in each path; otherwise every match writes the same cache and the last one stays (refuted)")
M("C176","proved",["C176_refine","C176_bounds","C176_box","C176_widths","C176_equal"],"in full for ties by a text; ties by explicit pairs of names are not modelled")
M("C177","partial",["C177_close","C177_separated","C177_start","C177_single","C177_window_refuted"],"order, separation and start in full; that centres stay in the window is refuted, as a tied centre is a sum of free parameters, and a single peak gets no bounds at all")
M("C178","partial",["C178_names","C178_radiographs","C178_bright","C178_default_refuted"],"in full if a dark field is given; without one, the default, nothing is calculated (refuted)")
M("C179","partial",["C179_layer_partial","C179_last_refuted"],"but for the object and the hole with the last label, which are never looked at (refuted); connectivity is scipy's, a parameter here")
M("C180","partial",["C180_sinogram_partial","C180_axis","C180_angles","C180_full_refuted","C180_crop_partial","C180_crop_refuted"],"if something is cut off at both edges; if nothing is to be cut off, everything is lost (refuted)")
M("C181","proved",["C181_rings"],"in full for beams and sources with different names")
M("C182","partial",["C182_fit_keeps","C182_find_keeps_partial","C182_find_keeps_refuted","C182_fit_starts_partial","C182_fit_finishes","C182_fit_refuses","C182_own_orientations_refuted","C182_unset_refuted","C182_fitted_refuted"],"in full for fit-grains of one analysis; find-orientations overwrites the table of grains (refuted), and of several analyses all use the orientations of the first (refuted)")
M("C183","partial",["C183_select","C183_round_trip","C183_read_partial","C183_read_refuted"],"in full but for text files with fewer than two grains, which are not read (refuted)")
M("C184","partial",["C184_start_partial"],"but for rotations with a vector part shorter than the machine epsilon, which unit_vector leaves as it is")
M("C185","partial",["C185_projected","C185_method","C185_one_to_one_partial","C185_area","C185_poles_refuted","C185_mask_refuted","C185_input_partial","C185_input_refuted","C185_beam"],"but for the pole (0, 0, 1): both poles of the equal-area map go to the middle (refuted); the input is changed if directions are inverted (refuted); the mask keeps the other hemisphere than described (refuted)")
M("C186","proved",["C186_last","C186_made","C186_radius","C186_radius_assigned","C186_diameter","C186_refused","C186_misspelt_refuted"],"a misspelt name is not refused (refuted)")
M("C187","proved",["C187_saved","C187_restored","C187_made"],"")
M("C188","proved",["C188_thickness","C188_standoff","C188_pinhole","C188_unknown","C188_absorption"],"calculate_linear_absorption_length is a parameter; energies are a float, a list or an array")
M("C189","proved",["C189_made","C189_phosphor","C189_restored","C189_complete"],"")
M("C190","partial",["C190_colour_partial","C190_round_trip_partial","C190_back_partial","C190_refused","C190_in_range","C190_input_partial","C190_input_refuted"],"values nearer than 1.5e-8 to 0 or 1 are moved there, also in the caller's array (refuted); colours that are as good as grey have no hue")
M("C191","proved",["C191_keyed","C191_readable","C191_blank_refuted","C191_fixed","C191_volume"],"float and int of words are parameters; a blank line in a file with keys is an IndexError (refuted)")
M("C192","partial",["C192_written","C192_mismatch","C192_differs_partial","C192_matches_refuted","C192_same_refuted"],"matches_material never returns True: it returns None for a material that is the same (refuted)")
