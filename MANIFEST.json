{
 "claims": [
  {
   "property": "C01",
   "status": "proved",
   "theorems": [
    "c01_values_nondecreasing",
    "c01_unsorted_rejected",
    "c01_results_are_constructed"
   ],
   "note": "Programs built from all public operations, including assignments to reference_time."
  },
  {
   "property": "C02",
   "status": "proved",
   "theorems": [
    "c02_add_absolute_delta",
    "c02_add_sub_cancel",
    "c02_sub_absolute_absolute",
    "c02_invalid_operations",
    "c02_delta_delta",
    "c02_delta_delta_after_assignment_refuted"
   ],
   "note": "Proved for objects as returned by the constructor and all operations; refuted after an assignment to reference_time of a time delta (c02_delta_delta_after_assignment_refuted)."
  },
  {
   "property": "C03",
   "status": "proved",
   "theorems": [
    "c03_timedelta_round_trip",
    "c03_quantity_moments",
    "c03_quantity_reference_refuted",
    "c03_quantity_reference",
    "c03_quantity_reference_kept"
   ],
   "note": "Moments and reference time survive as_timedelta plus reference_time. Through as_quantity (or a DataArray) the moments survive; the reference time becomes the first moment (c03_quantity_reference), so it is kept exactly if it was the first moment. Conversion of units is exact in the model."
  },
  {
   "property": "C04",
   "status": "proved",
   "theorems": [
    "c04_union_is_set_union",
    "c04_union_multiplicities",
    "c04_union_exists",
    "c04_union_order_independent",
    "c04_union_grouping_independent"
   ],
   "note": "Also with duplicates (largest multiplicity). pandas Index.union is modelled as sorted merge."
  },
  {
   "property": "C05",
   "status": "proved",
   "theorems": [
    "c05_resample_number",
    "c05_resample_interval",
    "c05_resample_errors"
   ],
   "note": "linspace is exact integer division with truncation in the model; the claim of equal steps holds up to less than one nanosecond."
  },
  {
   "property": "C06",
   "status": "proved",
   "theorems": [
    "c06_equals_decides",
    "c06_equals_exact",
    "c06_equals_symmetric",
    "c06_equals_transitive",
    "c06_equals_sound",
    "c06_equals_reflexive",
    "c06_equals_implicit_reference_refuted",
    "c06_equals_different_length_refuted",
    "c06_equals_scalar_refuted"
   ],
   "note": "c06_equals_exact covers any two non empty times. The docstring's reading (equal values and public reference times) is refuted three times: implicit reference time, different lengths raise, a scalar equals a constant index."
  },
  {
   "property": "C07",
   "status": "proved",
   "theorems": [
    "c07_add_pointwise",
    "c07_add_reference",
    "c07_mixed_reference",
    "c07_expression",
    "c07_invert_pointwise",
    "c07_cancel_pointwise",
    "c07_add_is_composition",
    "c07_invert_is_inverse",
    "c07_group",
    "c07_sub_add",
    "c07_extensional"
   ],
   "note": "Static systems: full algebra. Time dependent systems: +, -, invert pointwise in time, with all reference time combinations; Slerp is an oracle that is exact at samples, keeps orthonormality and is invariant under shifts of time."
  },
  {
   "property": "C08",
   "status": "proved",
   "theorems": [
    "c08_orthonormal_in_time",
    "c08_orthonormal_closed",
    "c08_right_handed_closed",
    "c08_determinant",
    "c08_tolerance_refuted"
   ],
   "note": "All expressions over exactly orthonormal systems, also in time; refuted for systems that only pass the numpy tolerance."
  },
  {
   "property": "C09",
   "status": "proved",
   "theorems": [
    "c09_two_axes",
    "c09_three_axes",
    "c09_too_few_axes"
   ],
   "note": "Each omitted axis, three axes, too few axes."
  },
  {
   "property": "C10",
   "status": "proved",
   "theorems": [
    "c10_moments",
    "c10_deltas",
    "c10_last_reset",
    "c10_last_reset_fresh",
    "c10_expression_refuted"
   ],
   "note": "Discrete systems; for coordinates given by an expression the claim is refuted (c10_expression_refuted)."
  },
  {
   "property": "C11",
   "status": "proved",
   "theorems": [
    "c11_interp_like",
    "c11_value_unique",
    "c11_samples",
    "c11_linear",
    "c11_no_fill",
    "c11_orientation",
    "c11_coordinates"
   ],
   "note": "For every interpolation segment that is exact at its ends (linear, Slerp as oracle); union of times, fill and selection of xarray are modelled. Without fillna, values outside the range are missing (c11_no_fill)."
  },
  {
   "property": "C12",
   "status": "proved",
   "theorems": [
    "c12_refinement",
    "c12_linear",
    "c12_coarse_refuted"
   ],
   "note": "Two step interpolation equals direct interpolation if the intermediate grid contains the samples in range; a coarse grid is refuted (c12_coarse_refuted)."
  },
  {
   "property": "C13",
   "status": "proved",
   "theorems": [
    "c13_inverse",
    "c13_between_refuted"
   ],
   "note": "holds at the times of the system, outside of them and for constant orientations and expressions (c13_inverse); refuted between the times of a rotating system for every spherical interpolation (c13_between_refuted)"
  },
  {
   "property": "C14",
   "status": "proved",
   "theorems": [
    "c14_reachable_is_tree",
    "c14_shortest_path"
   ],
   "note": "For all managers reachable by add_cs, delete_cs, merge, assign/delete_data, remove_subsystems, unmerge and extraction of subsystems."
  },
  {
   "property": "C15",
   "status": "proved",
   "theorems": [
    "c15_absolute_poses",
    "c15_algebra"
   ],
   "note": "static managers; the scipy Slerp is an oracle that is not used for static systems"
  },
  {
   "property": "C16",
   "status": "proved",
   "theorems": [
    "c16_transform"
   ],
   "note": "points without time in static managers"
  },
  {
   "property": "C17",
   "status": "proved",
   "theorems": [
    "c17_all_or_none",
    "c17_mixing_rejected",
    "c17_only_mixing_rejected"
   ],
   "note": "All or none after all sequences of add_cs/delete_cs; mixing is rejected; the only rejected calls are mixing ones. Replacing the only time dependent system is judged by the old system (example c17_ex_update)."
  },
  {
   "property": "C18",
   "status": "proved",
   "theorems": [
    "c18_merge_consistent",
    "c18_merge_refuted"
   ],
   "note": "Proved outside the unguarded case; the unguarded case is refuted by c18_merge_refuted."
  },
  {
   "property": "C19",
   "status": "proved",
   "theorems": [
    "c19_merge_unmerge",
    "c19_merge_unmerge_many",
    "c19_subsystem_list_refuted",
    "c19_unmerge_succeeds"
   ],
   "note": "One and many merges into a manager without subsystems; refuted for the subsystem list otherwise."
  },
  {
   "property": "C20",
   "status": "proved",
   "theorems": [
    "c20_own_systems_kept",
    "c20_added_below_subsystem_refuted"
   ],
   "note": "Own systems kept; systems below a subsystem member are lost (refuted)."
  },
  {
   "property": "C21",
   "status": "proved",
   "theorems": [
    "c21_own_data_returned",
    "c21_foreign_data_refuted"
   ],
   "note": "Under the strict history; refuted otherwise."
  },
  {
   "property": "C22",
   "status": "proved",
   "theorems": [
    "c22_delete_subtree",
    "c22_children_protected",
    "c22_root_and_unknown"
   ],
   "note": "For all reachable managers."
  },
  {
   "property": "C23",
   "status": "proved",
   "theorems": [
    "c23_subsystems_intact",
    "c23_affected_dropped"
   ],
   "note": "For all reachable managers, including nested subsystems."
  },
  {
   "property": "C24",
   "status": "proved",
   "theorems": [
    "c24_unaffected_kept",
    "c24_same_name_refuted"
   ],
   "note": "For unique subsystem names; refuted for equal names."
  },
  {
   "property": "C25",
   "status": "proved",
   "theorems": [
    "c25_data_names_unique",
    "c25_find_data",
    "c25_assign_find",
    "c25_data_stable",
    "c25_name_clash_rejected"
   ],
   "note": "Includes stability of data under all operations but deletion."
  },
  {
   "property": "C26",
   "status": "proved",
   "theorems": [
    "c26_separate",
    "c26_new",
    "c26_assign_refuted",
    "c26_back_refuted",
    "c26_delete_refuted",
    "c26_own",
    "c26_nested_refuted",
    "c26_extract_refuted",
    "c26_cycle_refuted",
    "c26_value_model",
    "c26_value_systems",
    "c26_value_subsystems",
    "c26_unique_refuted"
   ],
   "note": "heap model of the inner data dictionaries, records and lists of records. False: data assigned or deleted in a merged manager at a system of the other one changes the other one, extracted instances included, and back (c26_*_refuted); a data name can so be used twice; a root-only manager merged into itself contains itself. True: managers without common objects never change each other (c26_separate), data at own systems and at the common one is not shared (c26_own), and seen from one manager the model without sharing is exact (c26_value_model). relabel is not in the heap model"
  },
  {
   "property": "C27",
   "status": "proved",
   "theorems": [
    "c27_relabel_fresh",
    "c27_subsystems_protected",
    "c27_existing_name_refuted"
   ],
   "note": "Single renaming. Renaming to an existing name refuted."
  },
  {
   "property": "C28",
   "status": "proved",
   "theorems": [
    "c28_failure_changes_nothing",
    "c28_delete_data_refuted"
   ],
   "note": "All operations; delete_data refuted for stale records."
  },
  {
   "property": "C29",
   "status": "proved",
   "theorems": [
    "c29_round_trip",
    "c29_root",
    "c29_root_only_refuted",
    "c29_expression_refuted",
    "c29_relabel_refuted",
    "c29_extract_refuted"
   ],
   "note": "refuted as first stated: a manager with its root only can not be saved, one with an expression can be saved but not loaded, and renamed or extracted managers get another root (c29_*_refuted). True: all else is the same (c29_round_trip), root included for managers that were built without renaming the root (c29_root). The values of transformations and data after writing and reading are oracles, see C52; the order of sets too"
  },
  {
   "property": "C30",
   "status": "proved",
   "theorems": [
    "c30_sound",
    "c30_complete",
    "c30_reflexive",
    "c30_symmetric",
    "c30_symmetric_refuted",
    "c30_root_refuted"
   ],
   "note": "reflexive, sound and complete; symmetric if both managers have subsystems or none has any. Symmetry is refuted for a manager without subsystems, and the root is not compared"
  },
  {
   "property": "C31",
   "status": "proved",
   "theorems": [
    "c31_time_given",
    "c31_time_union",
    "c31_mismatch",
    "c31_deltas_refuted",
    "c31_lowest_refuted"
   ],
   "note": "the rows with a reference time of the function or the manager are as documented; the rows 'CS (lowest)' are refuted: deltas raise TypeError, without time the first time of the union is the reference time"
  },
  {
   "property": "C32",
   "status": "proved",
   "theorems": [
    "c32_round_trip",
    "c32_only_trees",
    "c32_double_edges",
    "c32_direct_refuted",
    "c32_reserved_refuted"
   ],
   "note": "every directed tree with string names, from every start node, through the file; nx.is_tree is an oracle. Without a file in between build_graph(build_tree(g)) always raises (c32_direct_refuted); attributes named like the parameters of add_node cannot be loaded"
  },
  {
   "property": "C33",
   "status": "proved",
   "theorems": [
    "c33_step",
    "c33_step_unique"
   ],
   "note": "Step interpolation holds the last value; before the first sample the first value."
  },
  {
   "property": "C34",
   "status": "proved",
   "theorems": [
    "c34_at_once",
    "c34_order",
    "c34_linear",
    "c34_method",
    "c34_refuted",
    "c34_grid",
    "c34_unknown"
   ],
   "note": "two dimensions; the original claim is refuted (c34_method, c34_refuted): the interpolation method is lost"
  },
  {
   "property": "C35",
   "status": "proved",
   "theorems": [
    "c35_at_once",
    "c35_partial",
    "c35_groups",
    "c35_order",
    "c35_scalar_refuted",
    "c35_missing",
    "c35_unknown",
    "c35_coords_refuted",
    "c35_symbol_refuted"
   ],
   "note": "any number of variables; value independent of order and grouping; coordinates, single values and symbols in place of dimensions are refuted (c35_*_refuted)"
  },
  {
   "property": "C36",
   "status": "proved",
   "theorems": [
    "c36_tree",
    "c36_failing",
    "c36_add",
    "c36_type",
    "c36_type_error",
    "c36_transformation",
    "c36_transformation_error"
   ],
   "note": "all sequences of add_transformation, create_transformation and add_signal_data, failing calls included"
  },
  {
   "property": "C37",
   "status": "proved",
   "theorems": [
    "c37_consistent",
    "c37_type_changes",
    "c37_create_unit",
    "c37_create_func_refuted",
    "c37_type_text_refuted",
    "c37_data"
   ],
   "note": "types and units along every edge; with a function the requested unit is only checked for compatibility and not used (c37_create_func_refuted), and only the first letter of the requested type is used (c37_type_text_refuted)"
  },
  {
   "property": "C38",
   "status": "proved",
   "theorems": [
    "c38_content",
    "c38_default",
    "c38_branched_refuted"
   ],
   "note": "from_dict(to_dict(c)): content for all chains, default input for chains with one leaf; refuted for branched chains (c38_branched_refuted). The file round trip of the graph is C32."
  },
  {
   "property": "C39",
   "status": "proved",
   "theorems": [
    "c39_separate",
    "c39_new",
    "c39_same_source_refuted",
    "c39_copy_refuted"
   ],
   "note": "for chains without common objects; refuted for chains of the same source and for from_dict(to_dict(c)), which shares the graph"
  },
  {
   "property": "C40",
   "status": "proved",
   "theorems": [
    "c40_lists",
    "c40_shapes",
    "c40_order",
    "c40_dots_last",
    "c40_none_refuted",
    "c40_missing_refuted"
   ],
   "note": "accepts exactly the matching shapes (ASCII strings, no blanks) and refuses lists in the wrong order; None as wildcard and the missing named dimension are refuted"
  },
  {
   "property": "C41",
   "status": "proved",
   "theorems": [
    "c41_number",
    "c41_range",
    "c41_open_refuted",
    "c41_format_refuted",
    "c41_format"
   ],
   "note": "for closed intervals and numbers within open ones; an interval without upper limit raises below it (refuted for every such number)"
  },
  {
   "property": "C42",
   "status": "proved",
   "theorems": [
    "c42_all_keys",
    "c42_missing_refuted",
    "c42_conflict_refuted"
   ],
   "note": "if all expected keys are present; refuted for missing keys, the validation stops there; a conflict of names in a nested dictionary is a TypeError"
  },
  {
   "property": "C43",
   "status": "proved",
   "theorems": [
    "c43_exact",
    "c43_sound",
    "c43_complete",
    "c43_reflexive",
    "c43_both",
    "c43_transitive",
    "c43_symmetric_refuted",
    "c43_missing",
    "c43_numeric_refuted",
    "c43_empty_refuted",
    "c43_class_refuted",
    "c43_keys_refuted",
    "c43_shared_refuted",
    "c43_transitive_refuted",
    "c43_total_refuted",
    "c43_dataclass"
   ],
   "note": "exactly one characterisation of True (c43_exact); reflexive, sound and complete under the stated conditions. Symmetry, transitivity and the check of all keys are refuted: empty containers and falsy keys are not compared"
  },
  {
   "property": "C44",
   "status": "proved",
   "theorems": [
    "c44_chunks",
    "c44_zero_refuted",
    "c44_tree",
    "c44_round_trip",
    "c44_tamper",
    "c44_given_hash",
    "c44_resave_refuted",
    "c44_missing"
   ],
   "note": "for every hash object that is fed byte by byte (parameter); chunk size zero and the second save are refuted (c44_zero_refuted, c44_resave_refuted)"
  },
  {
   "property": "C45",
   "status": "proved",
   "theorems": [
    "c45_complete",
    "c45_identity",
    "c45_entries",
    "c45_nothing_new",
    "c45_length",
    "c45_list_refuted",
    "c45_metadata",
    "c45_metadata_refuted",
    "c45_no_dict"
   ],
   "note": "for all trees of None, leaves, lists and dictionaries; length of lists and metadata of Nones are refuted"
  },
  {
   "property": "C46",
   "status": "proved",
   "theorems": [
    "c46_refuted",
    "c46_unchanged",
    "c46_permuted",
    "c46_unsorted",
    "c46_stable"
   ],
   "note": "exact condition; the original claim is refuted (c46_refuted): the lists of the object are sorted in place"
  },
  {
   "property": "C47",
   "status": "proved",
   "theorems": [
    "c47_parse",
    "c47_highest",
    "c47_found",
    "c47_none",
    "c47_base_refuted",
    "c47_rejects",
    "c47_select",
    "c47_select_refuted",
    "c47_select_single"
   ],
   "note": "release numbers only, no pre-releases; two bases are accepted if one is a prefix (c47_base_refuted), select_tag compares strings (c47_select_refuted)"
  },
  {
   "property": "C48",
   "status": "proved",
   "theorems": [
    "c48_protected",
    "c48_dict",
    "c48_hidden",
    "c48_clear_refuted"
   ],
   "note": "all operation sequences without clear, or if all protected keys exist; clear is refuted otherwise: it raises KeyError and drops protected entries. Iteration order of sets is a parameter"
  },
  {
   "property": "C49",
   "status": "proved",
   "theorems": [
    "c49_refused",
    "c49_overwrite",
    "c49_asdf_refuted",
    "c49_write_to",
    "c49_constructor"
   ],
   "note": "holds for files that are no ASDF files; refuted for existing ASDF files, which copy overwrites in any case"
  },
  {
   "property": "C50",
   "status": "proved",
   "theorems": [
    "c50_dict",
    "c50_setdefault_refuted",
    "c50_get_refuted",
    "c50_popitem",
    "c50_popitem_refuted",
    "c50_popitem_empty"
   ],
   "note": "effects of all methods, answers of all but setdefault, which returns nothing (c50_setdefault_refuted); get never raises although documented; popitem returns any item"
  },
  {
   "property": "C51",
   "status": "proved",
   "theorems": [
    "c51_alias",
    "c51_stable",
    "c51_week_refuted",
    "c51_values",
    "c51_round_trip",
    "c51_empty_refuted"
   ],
   "note": "for fixed frequencies; anchored weeks and empty indexes are refuted. inferred_freq and the reading of frequencies by pandas are parameters"
  },
  {
   "property": "C52",
   "status": "proved",
   "theorems": [
    "c52_round_trip",
    "c52_values",
    "c52_time",
    "c52_resting_refuted",
    "c52_rotating_refuted",
    "c52_small_refuted",
    "c52_left_over_refuted",
    "c52_expression",
    "c52_refuses"
   ],
   "note": "exact condition; resting systems with a time axis, rotations in place, displacements below 1e-8 and left over scalar times are refuted (c52_*_refuted)"
  },
  {
   "property": "C53",
   "status": "proved",
   "theorems": [
    "c53_closed_mesh_watertight",
    "c53_closed_block_euler"
   ],
   "note": "For every list of blocks with at least 2 profiles and 3 points each; the winding flag is a parameter of the model."
  },
  {
   "property": "C54",
   "status": "proved",
   "theorems": [
    "c54_closed_mesh_indices",
    "c54_block_own_points",
    "c54_open_mesh_boundary",
    "c54_orientation"
   ],
   "note": "Ranges, use of all points, triangle count and, for the open mesh, the boundary edges."
  },
  {
   "property": "C55",
   "status": "proved",
   "theorems": [
    "c55_raster",
    "c55_closed_diagonal",
    "c55_closed_refuted"
   ],
   "note": "the raster is the concatenation of the segment rasters without their last points plus the end of an open shape; closed shapes are recognised only if the start lies on the diagonal (comparison of arrays of shapes (2,1) and (2,)), refuted otherwise"
  },
  {
   "property": "C56",
   "status": "proved",
   "theorems": [
    "c56_points",
    "c56_equidistant",
    "c56_width",
    "c56_spacing",
    "c56_closest_refuted"
   ],
   "note": "number of points, equal distances, bound of the effective width; the docstring's 'closest possible width' is refuted"
  },
  {
   "property": "C57",
   "status": "proved",
   "theorems": [
    "c57_arc",
    "c57_end",
    "c57_total",
    "c57_full_circle"
   ],
   "note": "arc length integral modelled as radius times angle; full circles are refused (c57_full_circle)"
  },
  {
   "property": "C58",
   "status": "proved",
   "theorems": [
    "c58_center",
    "c58_small",
    "c58_segment",
    "c58_same_point"
   ],
   "note": "a radius below half the distance is silently enlarged (c58_small); equal points are refused"
  },
  {
   "property": "C59",
   "status": "proved",
   "theorems": [
    "c59_reflection",
    "c59_across_line",
    "c59_involution",
    "c59_isometry",
    "c59_no_normal"
   ],
   "note": "for exact real arithmetic, any non-zero normal / any two different points"
  },
  {
   "property": "C60",
   "status": "proved",
   "theorems": [
    "c60_construct",
    "c60_add",
    "c60_add_lines",
    "c60_reachable",
    "c60_translate_refuted",
    "c60_failed_transform_refuted"
   ],
   "note": "all reachable shapes; connectivity is not translation invariant because of the relative tolerance, and a failing transformation leaves a broken shape (both refuted)"
  },
  {
   "property": "C61",
   "status": "proved",
   "theorems": [
    "c61_ends",
    "c61_affine",
    "c61_valid",
    "c61_valid_refuted"
   ],
   "note": "end points, affine dependence, connectivity; the mean of opposite lines raises ValueError (refuted)"
  },
  {
   "property": "C62",
   "status": "proved",
   "theorems": [
    "c62_total",
    "c62_pose",
    "c62_start",
    "c62_continuous",
    "c62_boundary",
    "c62_index",
    "c62_defaults",
    "c62_dynamic_refuted"
   ],
   "note": "all lists of straight lines and bends; the arc length integral is an oracle that is right for constant functions. Dynamic segments that do not start at the origin jump (c62_dynamic_refuted)"
  },
  {
   "property": "C63",
   "status": "proved",
   "theorems": [
    "c63_radial",
    "c63_invalid"
   ],
   "note": "arc length integral as oracle"
  },
  {
   "property": "C64",
   "status": "proved",
   "theorems": [
    "c64_construct",
    "c64_local",
    "c64_exact",
    "c64_clamped",
    "c64_linear",
    "c64_arc_refuted",
    "c64_single_refuted"
   ],
   "note": "any schemes that are exact at the weights 0 and 1, the linear one for straight lines; a single profile can not be evaluated (c64_single_refuted), arcs can not be interpolated (c64_arc_refuted)"
  },
  {
   "property": "C65",
   "status": "proved",
   "theorems": [
    "c65_locations",
    "c65_width"
   ],
   "note": "exact real arithmetic; np.arange has ceil(stop/step) entries"
  },
  {
   "property": "C66",
   "status": "proved",
   "theorems": [
    "c66_area",
    "c66_translate",
    "c66_start",
    "c66_reverse",
    "c66_open_refuted"
   ],
   "note": "sign of the signed area; for closed lists, refuted for open ones"
  },
  {
   "property": "C67",
   "status": "proved",
   "theorems": [
    "c67_I",
    "c67_V",
    "c67_HV",
    "c67_DV",
    "c67_VV_refuted",
    "c67_cross_sect_area"
   ],
   "note": "closed forms for I, V, HV and DV for every drawing width; a VV-Groove with root face has too small an area, by (s1+s2)*c (c67_VV_refuted). Polygon area as shoelace formula, units as numbers"
  },
  {
   "property": "C68",
   "status": "proved",
   "theorems": [
    "c68_V",
    "c68_DV",
    "c68_VV",
    "c68_VV_refuted"
   ],
   "note": "V, DV and VV without root face; VV with root face is refuted: the kink is at height h+c instead of h"
  },
  {
   "property": "C69",
   "status": "proved",
   "theorems": [
    "c69_DU",
    "c69_DU_refuted"
   ],
   "note": "for c = 0 or h1 = h2; refuted otherwise, ValueError from the arc"
  },
  {
   "property": "C70",
   "status": "proved",
   "theorems": [
    "c70_single",
    "c70_exact",
    "c70_double_refuted"
   ],
   "note": "all single sided grooves; refuted for the double sided ones, which override __post_init__ without calling the check"
  },
  {
   "property": "C71",
   "status": "proved",
   "theorems": [
    "c71_none",
    "c71_given",
    "c71_one_refuted",
    "c71_create"
   ],
   "note": "if both heights are omitted; refuted if only one is given, it is copied to the other"
  },
  {
   "property": "C72",
   "status": "proved",
   "theorems": [
    "c72_DHV_area",
    "c72_DHV_width",
    "c72_DHV_width_refuted",
    "c72_DHU_width"
   ],
   "note": "the area of the DHV-Groove is right for every width; equal extents are refuted when the width is enlarged. DHU: widths only, its area is a raster approximation"
  },
  {
   "property": "C73",
   "status": "proved",
   "theorems": [
    "c73_balance",
    "c73_total",
    "c73_linear",
    "c73_inverse"
   ],
   "note": "exact real arithmetic; area zero is modelled as exception"
  },
  {
   "property": "C74",
   "status": "proved",
   "theorems": [
    "c74_antisymmetric",
    "c74_translate",
    "c74_rotate",
    "c74_zero",
    "c74_left",
    "c74_vector",
    "c74_reflection"
   ],
   "note": "exact real arithmetic"
  },
  {
   "property": "C75",
   "status": "proved",
   "theorems": [
    "c75_pose_unique",
    "c75_interp_time",
    "c75_interp_time_static",
    "c75_interp_time_mixed",
    "c75_axes"
   ],
   "note": "Discrete systems and expressions."
  },
  {
   "property": "C76",
   "status": "proved",
   "theorems": [
    "c76_static_left",
    "c76_static_left_refuted"
   ],
   "note": "For left systems without left over scalar time; refuted for those (c76_static_left_refuted)."
  },
  {
   "property": "C77",
   "status": "proved",
   "theorems": [
    "c77_pointwise",
    "c77_union"
   ],
   "note": "get_cs with explicit times and with the union of the times on the path"
  },
  {
   "property": "C78",
   "status": "proved",
   "theorems": [
    "c78_U",
    "c78_HU",
    "c78_UV",
    "c78_default",
    "c78_area"
   ],
   "note": "exact real arithmetic"
  },
  {
   "property": "C79",
   "status": "proved",
   "theorems": [
    "c79_raster",
    "c79_width"
   ],
   "note": "traces of straight lines and bends, exact real arithmetic"
  },
  {
   "property": "C80",
   "status": "proved",
   "theorems": [
    "c80_behind",
    "c80_front_refuted",
    "c80_bend"
   ],
   "note": "behind a straight end and for bends; refuted in front of a straight start, where the heading is reversed"
  },
  {
   "property": "C81",
   "status": "proved",
   "theorems": [
    "c81_sections",
    "c81_errors"
   ],
   "note": "constant profiles, stacked result"
  },
  {
   "property": "C82",
   "status": "proved",
   "theorems": [
    "c82_in_sync",
    "c82_close",
    "c82_no_sync",
    "c82_read_only",
    "c82_round_trip",
    "c82_empty_refuted"
   ],
   "note": "ASDF files read back as the tree that was written (library behaviour, assumed); an empty tree does not replace the content (c82_empty_refuted)"
  },
  {
   "property": "C83",
   "status": "proved",
   "theorems": [
    "c83_single",
    "c83_roles",
    "c83_opened_refuted",
    "c83_replaced_refuted",
    "c83_malformed"
   ],
   "note": "one schema for both purposes; with two schemas an opened file is written with the schema for reading (c83_opened_refuted)"
  },
  {
   "property": "C84",
   "status": "proved",
   "theorems": [
    "c84_copy",
    "c84_property",
    "c84_property_single",
    "c84_schemas_refuted",
    "c84_shared_refuted"
   ],
   "note": "one schema; with two schemas the copy gets one for both purposes, and a shared dictionary of keyword arguments carries schemas over"
  },
  {
   "property": "C85",
   "status": "proved",
   "theorems": [
    "c85_existing",
    "c85_trace_refuted",
    "c85_refused"
   ],
   "note": "existing files are kept; a new file that fails validation is left empty and blocks a second attempt (c85_trace_refuted)"
  },
  {
   "property": "C86",
   "status": "proved",
   "theorems": [
    "c86_discrete",
    "c86_value_unique",
    "c86_samples",
    "c86_again",
    "c86_expression",
    "c86_reset",
    "c86_reset_deltas"
   ],
   "note": "any segment function exact at its end points, any expression; times and values of one kind, or constant series. Conversion of units and the checks of _init_expression are not modelled"
  },
  {
   "property": "C87",
   "status": "proved",
   "theorems": [
    "c87_discrete",
    "c87_lost_refuted",
    "c87_expression"
   ],
   "note": "exact result for discrete values and expressions; that an absolute series stays absolute is refuted for discrete values (c87_lost_refuted)"
  },
  {
   "property": "C88",
   "status": "proved",
   "theorems": [
    "c88_time",
    "c88_discrete",
    "c88_constant",
    "c88_constant_refuted",
    "c88_expression",
    "c88_expression_refuted"
   ],
   "note": "exact for discrete series with two or more values and for expressions without reference time; constants lose their time and expressions their reference time (c88_*_refuted)"
  },
  {
   "property": "C89",
   "status": "proved",
   "theorems": [
    "c89_discrete",
    "c89_values",
    "c89_expression_refuted",
    "c89_reflexive",
    "c89_symmetric"
   ],
   "note": "discrete values; expressions need equal reference times, which the comparison ignores (c89_expression_refuted)"
  },
  {
   "property": "C90",
   "status": "proved",
   "theorems": [
    "c90_poses",
    "c90_tree",
    "c90_relative_refuted",
    "c90_root_refuted",
    "c90_shared_refuted",
    "c90_none_refuted"
   ],
   "note": "exact numbers; spherical interpolation is a parameter. Tree property of the result: for all systems at once or managers without reference time (c90_tree). Four parts refuted (c90_*_refuted): time deltas with a dated manager, the root as affected system, no times with expressions, shared objects"
  },
  {
   "property": "C91",
   "status": "proved",
   "theorems": [
    "c91_copy",
    "c91_objects",
    "c91_caller_refuted"
   ],
   "note": "heap of coordinate systems; holds for failing calls too. In place the caller's systems get the reference time of the manager (c91_caller_refuted)"
  },
  {
   "property": "C92",
   "status": "proved",
   "theorems": [
    "c92_match",
    "c92_versions",
    "c92_plain",
    "c92_errors",
    "c92_more_patterns",
    "c92_untagged_refuted"
   ],
   "note": "asdf.util.uri_match as documented; untagged values pass (c92_untagged_refuted)"
  },
  {
   "property": "C93",
   "status": "proved",
   "theorems": [
    "c93_converter",
    "c93_highest",
    "c93_none",
    "c93_one_base",
    "c93_bases_refuted"
   ],
   "note": "total order of versions and the parser of versions are parameters. Several bases can match if they continue that of the highest version (c93_bases_refuted); complements C47 by patterns and order"
  },
  {
   "property": "C94",
   "status": "proved",
   "theorems": [
    "c94_units",
    "c94_reports",
    "c94_runs",
    "c94_accepted",
    "c94_rescaled",
    "c94_order",
    "c94_missing_refuted",
    "c94_expectation_refuted"
   ],
   "note": "any unit registry in which compatibility is equality of dimensions; missing values and unreadable expectations: c94_*_refuted"
  },
  {
   "property": "C95",
   "status": "proved",
   "theorems": [
    "c95_made",
    "c95_errors",
    "c95_mappings",
    "c95_available",
    "c95_latest",
    "c95_order",
    "c95_order_refuted",
    "c95_latest_refuted"
   ],
   "note": "versions with parser and total order are parameters; file texts opaque. Two manifests of one version and no manifests: c95_order_refuted, c95_latest_refuted"
  },
  {
   "property": "C96",
   "status": "proved",
   "theorems": [
    "c96_add",
    "c96_last",
    "c96_enable",
    "c96_enable_added",
    "c96_installed",
    "c96_atomic_refuted",
    "c96_replace_refuted"
   ],
   "note": "the asdf configuration is the list of mappings passed to it; c96_atomic_refuted and c96_replace_refuted are the false variants"
  },
  {
   "property": "C97",
   "status": "proved",
   "theorems": [
    "c97_created",
    "c97_found",
    "c97_chain",
    "c97_chain_errors",
    "c97_transformation",
    "c97_parameters",
    "c97_name_refuted"
   ],
   "note": "errors (deviations) left out. The name given with a single source or transformation is ignored: c97_name_refuted"
  },
  {
   "property": "C98",
   "status": "proved",
   "theorems": [
    "c98_equipment",
    "c98_origin",
    "c98_failing",
    "c98_data_kept",
    "c98_data_added"
   ],
   "note": "equipment as value; the history of a chain is part of the statement (ebuilt)"
  },
  {
   "property": "C99",
   "status": "proved",
   "theorems": [
    "c99_equal",
    "c99_equivalence",
    "c99_transformations_refuted"
   ],
   "note": "NodeView of networkx compares as mapping, OutEdgeView as set (trusted); hence c99_transformations_refuted"
  },
  {
   "property": "C100",
   "status": "proved",
   "theorems": [
    "c100_accepted",
    "c100_error",
    "c100_order",
    "c100_values",
    "c100_types",
    "c100_dimensionality",
    "c100_values_refuted",
    "c100_units_refuted",
    "c100_resolution_refuted"
   ],
   "note": "parsers of numpy and pint are parameters. Refuted parts: c100_values_refuted, c100_units_refuted, c100_resolution_refuted"
  },
  {
   "property": "C101",
   "status": "proved",
   "theorems": [
    "c101_accepted",
    "c101_generic",
    "c101_errors",
    "c101_spatial",
    "c101_no_units"
   ],
   "note": "the order of python sets is a parameter that permutes"
  },
  {
   "property": "C102",
   "status": "proved",
   "theorems": [
    "c102_units",
    "c102_constraints",
    "c102_created",
    "c102_free_dimensions",
    "c102_same_dimension",
    "c102_renamed_refuted",
    "c102_test",
    "c102_dimensions",
    "c102_spatial",
    "c102_coordinates_refuted"
   ],
   "note": "assumes that xarray refuses arrays of different lengths without coordinates along one dimension (hypothesis arrays_clash, met by toy_arrays). Refuted parts: c102_renamed_refuted, c102_coordinates_refuted"
  },
  {
   "property": "C103",
   "status": "proved",
   "theorems": [
    "c103_sections",
    "c103_ends",
    "c103_constant",
    "c103_errors",
    "c103_single_refuted",
    "c103_stack_refuted"
   ],
   "note": "traces of lines and bends (walk). Refuted parts: c103_single_refuted, c103_stack_refuted"
  },
  {
   "property": "C104",
   "status": "proved",
   "theorems": [
    "c104_stack",
    "c104_shape",
    "c104_rasterize"
   ],
   "note": "over all traces of the model; profiles without shapes are left out"
  },
  {
   "property": "C105",
   "status": "proved",
   "theorems": [
    "c105_default",
    "c105_plain",
    "c105_lengths",
    "c105_reference",
    "c105_no_time",
    "c105_warning_refuted",
    "c105_units",
    "c105_unit_error"
   ],
   "note": "refuted part: c105_warning_refuted"
  },
  {
   "property": "C106",
   "status": "proved",
   "theorems": [
    "c106_one",
    "c106_same_deltas_refuted",
    "c106_union",
    "c106_conflict",
    "c106_different_references",
    "c106_series",
    "c106_series_times",
    "c106_expression"
   ],
   "note": "refuted part: c106_same_deltas_refuted (the theorem also states what is stored instead)"
  },
  {
   "property": "C107",
   "status": "proved",
   "theorems": [
    "c107_units",
    "c107_remembered",
    "c107_degrees",
    "c107_sequences",
    "c107_accepts",
    "c107_errors",
    "c107_proper",
    "c107_composition",
    "c107_reverse",
    "c107_right_handed",
    "c107_axis"
   ],
   "note": "over exact reals"
  },
  {
   "property": "C108",
   "status": "proved",
   "theorems": [
    "c108_loaded",
    "c108_euler",
    "c108_two_axes_refuted"
   ],
   "note": "refuted part: c108_two_axes_refuted; the witness for SciPy's angles is ex_euler"
  },
  {
   "property": "C109",
   "status": "proved",
   "theorems": [
    "c109_accepts",
    "c109_side",
    "c109_order",
    "c109_affine",
    "c109_collinear_refuted",
    "c109_winding",
    "c109_clockwise_refuted",
    "c109_scale"
   ],
   "note": "refuted parts: c109_collinear_refuted, c109_clockwise_refuted; over exact reals"
  },
  {
   "property": "C110",
   "status": "proved",
   "theorems": [
    "c110_times",
    "c110_frame_time_refuted",
    "c110_duration",
    "c110_accepts",
    "c110_array",
    "c110_errors",
    "c110_sequence",
    "c110_path_errors",
    "c110_path"
   ],
   "note": "refuted part: c110_frame_time_refuted; over exact reals"
  },
  {
   "property": "C111",
   "status": "proved",
   "theorems": [
    "c111_roundtrip",
    "c111_tree",
    "c111_malformed",
    "c111_rate",
    "c111_count",
    "c111_whole",
    "c111_nframes_refuted"
   ],
   "note": "refuted part: c111_nframes_refuted; over exact reals"
  },
  {
   "property": "C112",
   "status": "proved",
   "theorems": [
    "c112_shape",
    "c112_saved",
    "c112_empty_refuted",
    "c112_time_refuted",
    "c112_key_refuted",
    "c112_list_refuted"
   ],
   "note": "refuted parts: c112_time_refuted, c112_key_refuted, c112_list_refuted, c112_empty_refuted; inferred frequencies are assumed to describe the values"
  },
  {
   "property": "C113",
   "status": "proved",
   "theorems": [
    "c113_coordinates",
    "c113_unchanged",
    "c113_arguments_refuted",
    "c113_reuse",
    "c113_plain",
    "c113_errors",
    "c113_parameters",
    "c113_parameters_reuse",
    "c113_parameters_refuted"
   ],
   "note": "refuted parts: c113_arguments_refuted, c113_parameters_refuted"
  },
  {
   "property": "C114",
   "status": "proved",
   "theorems": [
    "c114_accepts",
    "c114_errors",
    "c114_values",
    "c114_period",
    "c114_bounds",
    "c114_formula_refuted"
   ],
   "note": "refuted part: c114_formula_refuted; over exact reals"
  },
  {
   "property": "C115",
   "status": "proved",
   "theorems": [
    "c115_roundtrip",
    "c115_array",
    "c115_content",
    "c115_reference_refuted",
    "c115_stamps_refuted",
    "c115_deltas",
    "c115_conversions"
   ],
   "note": "refuted parts: c115_reference_refuted, c115_stamps_refuted"
  },
  {
   "property": "C116",
   "status": "proved",
   "theorems": [
    "c116_reference",
    "c116_values",
    "c116_lengths",
    "c116_reflexive",
    "c116_symmetric_refuted",
    "c116_transitive_refuted",
    "c116_length_refuted",
    "c116_second_refuted"
   ],
   "note": "refuted parts: c116_symmetric_refuted, c116_transitive_refuted, c116_length_refuted, c116_second_refuted"
  },
  {
   "property": "C117",
   "status": "proved",
   "theorems": [
    "c117_versions",
    "c117_one_digit",
    "c117_order_refuted",
    "c117_mapping",
    "c117_open",
    "c117_default",
    "c117_read",
    "c117_again",
    "c117_arguments_refuted",
    "c117_weldx_refuted"
   ],
   "note": "refuted parts: c117_order_refuted, c117_arguments_refuted, c117_weldx_refuted"
  },
  {
   "property": "C118",
   "status": "proved",
   "theorems": [
    "c118_header",
    "c118_no_end",
    "c118_mark_refuted",
    "c118_handle",
    "c118_position_refuted",
    "c118_errors",
    "c118_reset",
    "c118_reset_refuted"
   ],
   "note": "refuted parts: c118_mark_refuted, c118_position_refuted, c118_reset_refuted; decoding and parsing are not modelled"
  },
  {
   "property": "C119",
   "status": "proved",
   "theorems": [
    "c119_swap",
    "c119_swap_errors",
    "c119_swap_twice",
    "c119_swap_twice_refuted",
    "c119_accepts",
    "c119_errors",
    "c119_values",
    "c119_twice"
   ],
   "note": "refuted part: c119_swap_twice_refuted"
  },
  {
   "property": "C120",
   "status": "proved",
   "theorems": [
    "c120_quantities",
    "c120_errors",
    "c120_back",
    "c120_roundtrip_refuted",
    "c120_roundtrip",
    "c120_indexes_refuted",
    "c120_quantify",
    "c120_dequantify",
    "c120_texts",
    "c120_empty_refuted",
    "c120_same",
    "c120_units"
   ],
   "note": "refuted parts: c120_roundtrip_refuted, c120_indexes_refuted, c120_empty_refuted; reading back a printed unit is a hypothesis of c120_dequantify and c120_texts"
  },
  {
   "property": "C121",
   "status": "proved",
   "theorems": [
    "c121_arrays",
    "c121_scalars",
    "c121_again_refuted",
    "c121_again",
    "c121_attrs",
    "c121_attrs_refuted",
    "c121_numbers",
    "c121_errors"
   ],
   "note": "refuted parts: c121_again_refuted, c121_attrs_refuted"
  },
  {
   "property": "C122",
   "status": "proved",
   "theorems": [
    "c122_arrays",
    "c122_name_refuted",
    "c122_dtype_refuted",
    "c122_values",
    "c122_datasets"
   ],
   "note": "refuted parts: c122_name_refuted, c122_dtype_refuted"
  },
  {
   "property": "C123",
   "status": "proved",
   "theorems": [
    "c123_values",
    "c123_errors",
    "c123_given_refuted",
    "c123_array",
    "c123_scalar_refuted",
    "c123_shape",
    "c123_unit_refuted"
   ],
   "note": "refuted parts: c123_given_refuted, c123_scalar_refuted, c123_unit_refuted"
  },
  {
   "property": "C124",
   "status": "proved",
   "theorems": [
    "c124_quantity",
    "c124_tuple",
    "c124_array_refuted",
    "c124_array"
   ],
   "note": "refuted part: c124_array_refuted"
  },
  {
   "property": "C125",
   "status": "proved",
   "theorems": [
    "c125_values",
    "c125_no_unit",
    "c125_number_refuted",
    "c125_names_refuted"
   ],
   "note": "refuted parts: c125_number_refuted, c125_names_refuted"
  },
  {
   "property": "C126",
   "status": "proved",
   "theorems": [
    "c126_accepts",
    "c126_dims",
    "c126_errors",
    "c126_check_refuted",
    "c126_unit_refuted"
   ],
   "note": "refuted parts: c126_check_refuted, c126_unit_refuted"
  },
  {
   "property": "C127",
   "status": "proved",
   "theorems": [
    "c127_quantity",
    "c127_lengths",
    "c127_constant",
    "c127_method",
    "c127_ignored_refuted",
    "c127_unsorted",
    "c127_rebuild",
    "c127_rebuild_refuted"
   ],
   "note": "refuted parts: c127_ignored_refuted, c127_rebuild_refuted"
  },
  {
   "property": "C128",
   "status": "proved",
   "theorems": [
    "c128_new",
    "c128_refused",
    "c128_add",
    "c128_add_refused",
    "c128_shared",
    "c128_list_refuted"
   ],
   "note": "refuted part: c128_list_refuted"
  },
  {
   "property": "C129",
   "status": "proved",
   "theorems": [
    "c129_apply",
    "c129_frame",
    "c129_linked",
    "c129_exception",
    "c129_copy",
    "c129_values",
    "c129_linked_refuted",
    "c129_twice_refuted",
    "c129_exception_refuted"
   ],
   "note": "refuted parts: c129_linked_refuted, c129_twice_refuted, c129_exception_refuted"
  },
  {
   "property": "C130",
   "status": "proved",
   "theorems": [
    "c130_add",
    "c130_profile",
    "c130_trace",
    "c130_trace_list",
    "c130_trace_refuted"
   ],
   "note": "refuted part: c130_trace_refuted"
  },
  {
   "property": "C131",
   "status": "proved",
   "theorems": [
    "c131_found",
    "c131_missing",
    "c131_ending",
    "c131_name_refuted"
   ],
   "note": "refuted part: c131_name_refuted"
  },
  {
   "property": "C132",
   "status": "proved",
   "theorems": [
    "c132_tree",
    "c132_required",
    "c132_no_properties",
    "c132_optional_refuted",
    "c132_type_refuted",
    "c132_lost_refuted",
    "c132_class"
   ],
   "note": "refuted parts: c132_optional_refuted, c132_type_refuted, c132_lost_refuted"
  },
  {
   "property": "C133",
   "status": "proved",
   "theorems": [
    "c133_read",
    "c133_items",
    "c133_set_attribute",
    "c133_set_item",
    "c133_total",
    "c133_change_refuted",
    "c133_follow_refuted",
    "c133_shared_items",
    "c133_same_refuted",
    "c133_leaf"
   ],
   "note": "refuted parts: c133_change_refuted, c133_follow_refuted, c133_same_refuted"
  },
  {
   "property": "C134",
   "status": "proved",
   "theorems": [
    "c134_kept",
    "c134_last",
    "c134_first",
    "c134_warnings",
    "c134_text",
    "c134_first_refuted",
    "c134_blank_refuted",
    "c134_own_refuted"
   ],
   "note": "refuted parts: c134_first_refuted, c134_blank_refuted, c134_own_refuted"
  },
  {
   "property": "C135",
   "status": "proved",
   "theorems": [
    "c135_call",
    "c135_text",
    "c135_mapping",
    "c135_mapping_fails"
   ],
   "note": ""
  },
  {
   "property": "C136",
   "status": "proved",
   "theorems": [
    "c136_setter",
    "c136_added",
    "c136_failed",
    "c136_kept",
    "c136_history",
    "c136_copied",
    "c136_valid_refuted",
    "c136_shared_refuted",
    "c136_entry_refuted",
    "c136_default"
   ],
   "note": "refuted parts: c136_valid_refuted, c136_shared_refuted, c136_entry_refuted"
  },
  {
   "property": "C137",
   "status": "proved",
   "theorems": [
    "c137_tree",
    "c137_memory",
    "c137_warnings",
    "c137_twice",
    "c137_roundtrip",
    "c137_values",
    "c137_unchanged_refuted",
    "c137_metadata_refuted",
    "c137_shared_refuted"
   ],
   "note": "refuted parts: c137_unchanged_refuted, c137_metadata_refuted, c137_shared_refuted"
  },
  {
   "property": "C138",
   "status": "proved",
   "theorems": [
    "c138_file",
    "c138_dims",
    "c138_reload",
    "c138_same",
    "c138_unitless",
    "c138_discrete",
    "c138_auxiliary",
    "c138_equal_refuted",
    "c138_loadable_refuted"
   ],
   "note": "refuted parts: c138_equal_refuted, c138_loadable_refuted"
  },
  {
   "property": "C139",
   "status": "proved",
   "theorems": [
    "c139_tee",
    "c139_inclined",
    "c139_parallel",
    "c139_corner",
    "c139_shifted",
    "c139_upright",
    "c139_code",
    "c139_missing",
    "c139_gap_refuted",
    "c139_overlap_refuted",
    "c139_default"
   ],
   "note": "refuted parts: c139_gap_refuted, c139_overlap_refuted"
  },
  {
   "property": "C140",
   "status": "proved",
   "theorems": [
    "c140_raw",
    "c140_accepts",
    "c140_shape",
    "c140_given",
    "c140_cloud",
    "c140_triangles",
    "c140_unit",
    "c140_limits",
    "c140_no_limits",
    "c140_dims",
    "c140_file",
    "c140_file_units",
    "c140_file_times",
    "c140_file_refused",
    "c140_file_rest",
    "c140_savable",
    "c140_lists",
    "c140_saved",
    "c140_legacy",
    "c140_dimension_refuted",
    "c140_components_refuted",
    "c140_units_refuted",
    "c140_indices_refuted",
    "c140_range_refuted",
    "c140_labels_refuted"
   ],
   "note": "refuted parts: c140_dimension_refuted, c140_components_refuted, c140_units_refuted, c140_indices_refuted, c140_range_refuted, c140_labels_refuted"
  },
  {
   "property": "C141",
   "status": "proved",
   "theorems": [
    "c141_display",
    "c141_class",
    "c141_select",
    "c141_groove",
    "c141_unknown",
    "c141_required",
    "c141_process",
    "c141_parameters",
    "c141_gmaw",
    "c141_arc",
    "c141_arc_known",
    "c141_arc_unknown",
    "c141_default_refuted",
    "c141_supported_refuted",
    "c141_tag_refuted",
    "c141_abbreviation_refuted",
    "c141_class_without_version",
    "c141_arc_saved"
   ],
   "note": "refuted parts: c141_default_refuted, c141_supported_refuted, c141_tag_refuted, c141_abbreviation_refuted"
  },
  {
   "property": "C142",
   "status": "proved",
   "theorems": [
    "c142_stamps",
    "c142_deltas",
    "c142_dates",
    "c142_durations",
    "c142_no_times",
    "c142_numbers",
    "c142_mixed",
    "c142_scalar",
    "c142_none",
    "c142_missing",
    "c142_dependent",
    "c142_empty_refuted",
    "c142_duration",
    "c142_saved_time",
    "c142_setter_refuted",
    "c142_difference",
    "c142_relative",
    "c142_quantity",
    "c142_array",
    "c142_array_kept",
    "c142_array_refuted",
    "c142_index",
    "c142_empty_index",
    "c142_index_refuted"
   ],
   "note": "refuted parts: c142_empty_refuted, c142_setter_refuted, c142_array_refuted, c142_index_refuted"
  },
  {
   "property": "C143",
   "status": "proved",
   "theorems": [
    "c143_expressions",
    "c143_without_parameters",
    "c143_mathematical",
    "c143_variables",
    "c143_symmetric",
    "c143_transitive",
    "c143_generic",
    "c143_generic_operator",
    "c143_time_series",
    "c143_systems",
    "c143_operator_total",
    "c143_operator_symmetric",
    "c143_reflexive",
    "c143_kinds",
    "c143_plain",
    "c143_not_implemented",
    "c143_no_dictionary",
    "c143_set",
    "c143_set_unknown",
    "c143_set_ok",
    "c143_new",
    "c143_new_fails",
    "c143_variable_names",
    "c143_symmetric_refuted",
    "c143_method_refuted",
    "c143_reference_refuted",
    "c143_set_refuted"
   ],
   "note": "refuted parts: c143_symmetric_refuted, c143_method_refuted, c143_reference_refuted, c143_set_refuted"
  },
  {
   "property": "C144",
   "status": "proved",
   "theorems": [
    "c144_layout",
    "c144_positions",
    "c144_height",
    "c144_distinct",
    "c144_no_crossing",
    "c144_symmetric",
    "c144_each_link_once",
    "c144_link_colour"
   ],
   "note": ""
  },
  {
   "property": "C145",
   "status": "proved",
   "theorems": [
    "c145_from_once",
    "c145_to_once",
    "c145_reading",
    "c145_reading_other",
    "c145_writing",
    "c145_writing_error",
    "c145_tags",
    "c145_methods",
    "c145_tags_refuted",
    "c145_lookup",
    "c145_untagged",
    "c145_indirect_refuted",
    "c145_registered",
    "c145_late_refuted",
    "c145_extension",
    "c145_contexts"
   ],
   "note": "refuted parts: c145_tags_refuted, c145_indirect_refuted, c145_late_refuted"
  },
  {
   "property": "C146",
   "status": "proved",
   "theorems": [
    "c146_accepted",
    "c146_refused",
    "c146_no_overwrite",
    "c146_success",
    "c146_written",
    "c146_failure",
    "c146_occupied",
    "c146_command",
    "c146_command_refuted",
    "c146_function"
   ],
   "note": "refuted part: c146_command_refuted"
  },
  {
   "property": "C147",
   "status": "proved",
   "theorems": [
    "c147_whole",
    "c147_part",
    "c147_nowhere",
    "c147_number_refuted",
    "c147_text",
    "c147_info",
    "c147_info_nowhere",
    "c147_modes",
    "c147_printed",
    "c147_path_refuted",
    "c147_session",
    "c147_orphan_refuted",
    "c147_interactive",
    "c147_lab",
    "c147_arrays",
    "c147_table",
    "c147_table_refuted"
   ],
   "note": "refuted parts: c147_number_refuted, c147_text (label), c147_path_refuted, c147_orphan_refuted, c147_table_refuted"
  },
  {
   "property": "C148",
   "status": "proved",
   "theorems": [
    "c148_arguments",
    "c148_tables",
    "c148_created",
    "c148_dimension",
    "c148_text_refuted",
    "c148_front_refuted",
    "c148_fields",
    "c148_quantities",
    "c148_wrong",
    "c148_ignored_refuted",
    "c148_unknown",
    "c148_missing"
   ],
   "note": "refuted parts: c148_text_refuted, c148_front_refuted, c148_ignored_refuted"
  },
  {
   "property": "C149",
   "status": "proved",
   "theorems": [
    "c149_schemas",
    "c149_schema_error",
    "c149_threshold",
    "c149_new",
    "c149_new_ok",
    "c149_new_error",
    "c149_sync",
    "c149_sync_setting",
    "c149_close",
    "c149_write_to",
    "c149_copy",
    "c149_copy_refuted",
    "c149_copies_refuted",
    "c149_leak_refuted",
    "c149_failing_refuted",
    "c149_compression_refuted",
    "c149_sync_refuted",
    "c149_close_refuted",
    "c149_write_to_refuted"
   ],
   "note": "refuted parts: c149_copy_refuted, c149_copies_refuted, c149_leak_refuted, c149_failing_refuted, c149_compression_refuted, c149_sync_refuted, c149_close_refuted, c149_write_to_refuted"
  },
  {
   "property": "C150",
   "status": "proved",
   "theorems": [
    "c150_decorator_found",
    "c150_decorator_missing",
    "c150_import_fallback",
    "c150_import_widgets",
    "c150_import_error",
    "c150_import_again",
    "c150_replacement",
    "c150_replacement_error",
    "c150_lcs",
    "c150_lcs_refuted",
    "c150_backend",
    "c150_csm_k3d",
    "c150_csm_mpl",
    "c150_csm_ignored_refuted",
    "c150_csm_ignored_k3d_refuted",
    "c150_csm_without",
    "c150_csm_refuted",
    "c150_data_mpl",
    "c150_data_k3d",
    "c150_data_k3d_missing",
    "c150_data_without",
    "c150_data_refuted",
    "c150_trace_axes",
    "c150_trace_new",
    "c150_trace_equal",
    "c150_trace_equal_refuted",
    "c150_trace_refuted"
   ],
   "note": "refuted parts: c150_lcs_refuted, c150_csm_refuted, c150_csm_ignored_refuted, c150_csm_ignored_k3d_refuted, c150_data_refuted, c150_trace_refuted, c150_trace_equal_refuted"
  },
  {
   "property": "C151",
   "status": "proved",
   "theorems": [
    "c151_round_trip",
    "c151_type",
    "c151_plain_refuted",
    "c151_type_refuted",
    "c151_load",
    "c151_load_missing",
    "c151_unit",
    "c151_tag",
    "c151_tag_error",
    "c151_newest_refuted"
   ],
   "note": "refuted parts: c151_type_refuted, c151_plain_refuted, c151_newest_refuted; the long format of the unit must be readable (hypothesis of c151_round_trip, c151_type, c151_unit)"
  },
  {
   "property": "C152",
   "status": "proved",
   "theorems": [
    "c152_direction",
    "c152_deprecated_refuted",
    "c152_failure",
    "c152_accepted",
    "c152_errors",
    "c152_transformations",
    "c152_systems",
    "c152_create",
    "c152_create_euler",
    "c152_create_axes",
    "c152_create_error"
   ],
   "note": "refuted part: c152_deprecated_refuted; the constructors of coordinate systems are parameters"
  },
  {
   "property": "C153",
   "status": "proved",
   "theorems": [
    "c153_expression",
    "c153_time_values",
    "c153_time_expression",
    "c153_time_expression_refuted",
    "c153_generic_values",
    "c153_generic_expression",
    "c153_other",
    "c153_generic_expression_refuted",
    "c153_shape",
    "c153_profile"
   ],
   "note": "refuted parts: c153_time_expression_refuted, c153_generic_expression_refuted; for values whose texts have one line"
  },
  {
   "property": "C154",
   "status": "proved",
   "theorems": [
    "c154_get",
    "c154_missing",
    "c154_known",
    "c154_owner",
    "c154_has_unknown_refuted",
    "c154_assigned",
    "c154_assigned_target",
    "c154_any_target",
    "c154_others",
    "c154_deleted",
    "c154_undo",
    "c154_accepted",
    "c154_refused",
    "c154_static_points"
   ],
   "note": "refuted part: c154_has_unknown_refuted; transform_data is an arbitrary function, except in c154_static_points"
  },
  {
   "property": "C155",
   "status": "proved",
   "theorems": [
    "c155_end_faces",
    "c155_convex",
    "c155_concave_refuted",
    "c155_volume",
    "c155_outward",
    "c155_open_inward_refuted",
    "c155_shape_inward_refuted",
    "c155_repeated_outward",
    "c155_oblique",
    "c155_blocks",
    "c155_any_points",
    "c155_affine"
   ],
   "note": "refuted parts: c155_concave_refuted, c155_open_inward_refuted, c155_shape_inward_refuted; the volume is that of extrusions with the same polygon at all profiles"
  }
 ]
}