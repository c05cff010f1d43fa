{
 "claims": [
  {
   "property": "C01",
   "status": "proved",
   "theorems": [
    "C01_index_bijection",
    "C01_proper_shapes_are_built"
   ],
   "note": ""
  },
  {
   "property": "C02",
   "status": "proved",
   "theorems": [
    "C02_write_is_local"
   ],
   "note": ""
  },
  {
   "property": "C03",
   "status": "proved",
   "theorems": [
    "C03_bookkeeping",
    "C03_no_undefined_behaviour"
   ],
   "note": ""
  },
  {
   "property": "C04",
   "status": "proved",
   "theorems": [
    "C04_reshape",
    "C04_resize",
    "C04_construct_with_values"
   ],
   "note": ""
  },
  {
   "property": "C05",
   "status": "proved",
   "theorems": [
    "C05_shape_preconditions",
    "C05_empty_shape_refuted",
    "C05_length_error_leaves_inconsistent_refuted"
   ],
   "note": "the empty shape is undefined behaviour (finding); a length_error leaves the array inconsistent (refuted)"
  },
  {
   "property": "C06",
   "status": "proved",
   "theorems": [
    "C06_add_reaches_its_cell",
    "C06_new_grid_is_empty",
    "C06_contents_is_pure"
   ],
   "note": ""
  },
  {
   "property": "C07",
   "status": "proved",
   "theorems": [
    "C07_add_range_covers_the_box"
   ],
   "note": ""
  },
  {
   "property": "C08",
   "status": "proved",
   "theorems": [
    "C08_add_once_adds_if_absent",
    "C08_add_once_never_duplicates"
   ],
   "note": ""
  },
  {
   "property": "C09",
   "status": "proved",
   "theorems": [
    "C09_outside_is_rejected"
   ],
   "note": ""
  },
  {
   "property": "C10",
   "status": "proved",
   "theorems": [
    "C10_max_indices",
    "C10_max_indices_outside",
    "C10_max_indices_refuted",
    "C10_index_valid_iff_below_upper_limit",
    "C10_upper_limit_first_dimension_undefined",
    "C10_upper_limit_second_dimension_aliases",
    "C10_accepted_coordinate_is_safe_refuted"
   ],
   "note": "'every accepted coordinate is safe' is false and refuted on doubles; the exact set of safe coordinates is proved max_indices (never called) is proved to give the cell with upper borders; refuted at the lower limit (index -1)."
  },
  {
   "property": "C11",
   "status": "proved",
   "theorems": [
    "C11_box_is_found_binary64",
    "C11_box_is_found_any_rounding",
    "C11_contents_only_grow"
   ],
   "note": ""
  },
  {
   "property": "C12",
   "status": "proved",
   "theorems": [
    "C12_max_size_bounds_every_bin",
    "C12_max_size_of_nothing",
    "C12_cleared"
   ],
   "note": ""
  },
  {
   "property": "C13",
   "status": "proved",
   "theorems": [
    "C13_quad_partition_of_unity",
    "C13_hexahedron_partition_of_unity",
    "C13_quad_nodal_values",
    "C13_hexahedron_nodal_values",
    "C13_quad_between_0_and_1",
    "C13_hexahedron_between_0_and_1"
   ],
   "note": ""
  },
  {
   "property": "C14",
   "status": "proved",
   "theorems": [
    "C14_quad_gradient",
    "C14_quad_hessian",
    "C14_quad_hessian_symmetric",
    "C14_hexahedron_gradient",
    "C14_hexahedron_hessian_right_iff",
    "C14_hexahedron_hessian_symmetric",
    "C14_hexahedron_hessian_refuted"
   ],
   "note": "2D complete; 3D gradient and Hessian symmetry proved; 3D off-diagonal Hessian is wrong in the code: refuted, with the exact set of points where it is right"
  },
  {
   "property": "C15",
   "status": "proved",
   "theorems": [
    "C15_quad_range_is_the_rectangle",
    "C15_quad_min_max"
   ],
   "note": ""
  },
  {
   "property": "C16",
   "status": "proved",
   "theorems": [
    "C16_hexahedron_range_is_the_column",
    "C16_hexahedron_range_refuted",
    "C16_hexahedron_min_max"
   ],
   "note": "the intended claim is false: refuted; the recognised set (the column) is characterised exactly"
  },
  {
   "property": "C17",
   "status": "proved",
   "theorems": [
    "C17_quad_eval_refreshes_value",
    "C17_hexahedron_eval_refreshes_value",
    "C17_quad_eval_grad_refreshes_all",
    "C17_quad_eval_hess_refreshes_all",
    "C17_hexahedron_eval_grad_refreshes_two",
    "C17_hexahedron_eval_hess_refreshes_four",
    "C17_hexahedron_eval_grad_refuted",
    "C17_hexahedron_eval_hess_refuted"
   ],
   "note": "2D proved; 3D refuted, with the exact set of refreshed components"
  },
  {
   "property": "C18",
   "status": "proved",
   "theorems": [
    "C18_bilinear_interpolant",
    "C18_mesh_and_field_exist"
   ],
   "note": ""
  },
  {
   "property": "C19",
   "status": "proved",
   "theorems": [
    "C19_nodal_values",
    "C19_maximum_principle",
    "C19_affine_data"
   ],
   "note": ""
  },
  {
   "property": "C20",
   "status": "proved",
   "theorems": [
    "C20_shared_edge",
    "C20_shared_corner",
    "C20_any_element",
    "C20_continuous"
   ],
   "note": ""
  },
  {
   "property": "C21",
   "status": "proved",
   "theorems": [
    "C21_2d_history_independent",
    "C21_3d_history_independent",
    "C21_2d_any_arithmetic",
    "C21_3d_any_arithmetic",
    "C21_outside_refuted"
   ],
   "note": "inside the mesh proved (exact reals; in any arithmetic wherever an interpolator claims the point); history dependence outside the mesh proved by a witness on doubles"
  },
  {
   "property": "C22",
   "status": "proved",
   "theorems": [
    "C22_chosen_element",
    "C22_one_layer",
    "C22_affine_data",
    "C22_wrong_layer_refuted"
   ],
   "note": "the intended claim is false: refuted over the reals on two stacked cubes; the element actually used is characterised exactly; proved for one-layer meshes and for affine data"
  },
  {
   "property": "C23",
   "status": "proved",
   "theorems": [
    "C23_2d_stored_is_latest",
    "C23_3d_stored_is_latest",
    "C23_initially",
    "C23_2d_eval",
    "C23_3d_eval",
    "C23_2d_eval_grad",
    "C23_3d_eval_grad",
    "C23_2d_eval_hess",
    "C23_3d_eval_hess",
    "C23_2d_throw_changes_nothing",
    "C23_3d_throw_changes_nothing"
   ],
   "note": ""
  },
  {
   "property": "C24",
   "status": "proved",
   "theorems": [
    "C24_2d_only_the_grid_can_fail",
    "C24_3d_only_the_grid_can_fail",
    "C24_2d_safe",
    "C24_3d_safe",
    "C24_on_the_limit_refuted"
   ],
   "note": "scratch buffers and data proved safe in any arithmetic; the only failing step is the grid lookup, which is undefined at a coordinate equal to the grid's upper limit (refuted on doubles, see C10); off the limits proved to return or throw"
  },
  {
   "property": "C25",
   "status": "proved",
   "theorems": [
    "C25_2d_grid_covers_mesh",
    "C25_3d_grid_covers_mesh"
   ],
   "note": ""
  },
  {
   "property": "C26",
   "status": "proved",
   "theorems": [
    "C26_reads_file_2d",
    "C26_reads_file_3d",
    "C26_find_field",
    "C26_find_missing",
    "C26_file_to_values"
   ],
   "note": "for every number notation that operator>> reads back (hypothesis number_reader); the mesh built from the points and cells is assumed to exist, which C18/C22 prove for meshes of rectangles and boxes"
  },
  {
   "property": "C27",
   "status": "proved",
   "theorems": [
    "C27_terminates_refuted",
    "C27_malformed_number_refuted",
    "C27_stuck_data",
    "C27_stuck_mesh",
    "C27_only_if_stuck_2d",
    "C27_only_if_stuck_3d"
   ],
   "note": "the claim is false: refuted for a missing file and for a malformed number; proved that a failed stream without end-of-file is the only cause"
  },
  {
   "property": "C28",
   "status": "proved",
   "theorems": [
    "C28_wrappers_are_values",
    "C28_nothing_leaks",
    "C28_clone_throws",
    "C28_set_null",
    "C28_call_empty",
    "C28_dead_wrapper",
    "C28_set_twice"
   ],
   "note": "as long as clone does not throw; a throwing clone in an assignment leaves a dangling pointer (C28_clone_throws)"
  },
  {
   "property": "C29",
   "status": "proved",
   "theorems": [
    "C29_assignment_safe_refuted",
    "C29_only_bad_assignments",
    "C29_good_assignments"
   ],
   "note": "the claim is false: refuted; the exact set of undefined assignments (self-assignment, empty source) is characterised"
  },
  {
   "property": "C30",
   "status": "proved",
   "theorems": [
    "C30_return_is_stored",
    "C30_history",
    "C30_simple_base",
    "C30_flex_return_is_stored",
    "C30_flex_history",
    "C30_flex_eval",
    "C30_flex_eval_grad",
    "C30_flex_eval_hess"
   ],
   "note": "for PFuncBase objects and for PFlexFunction"
  },
  {
   "property": "C31",
   "status": "proved",
   "theorems": [
    "C31_getter_is_last_result",
    "C31_single_evaluation",
    "C31_all_refreshed",
    "C31_wrapper_reads_the_same",
    "C31_wrapper_sizes",
    "C31_wrapper_resize",
    "C31_base_class"
   ],
   "note": ""
  },
  {
   "property": "C32",
   "status": "proved",
   "theorems": [
    "C32_value_is_tensor_sum",
    "C32_value_real",
    "C32_series_exist",
    "C32_coefficients_exist",
    "C32_assign_coefficient"
   ],
   "note": ""
  },
  {
   "property": "C33",
   "status": "proved",
   "theorems": [
    "C33_gradient_sums",
    "C33_hessian_sums",
    "C33_gradient_is_partial_derivative",
    "C33_hessian_is_second_derivative"
   ],
   "note": ""
  },
  {
   "property": "C34",
   "status": "proved",
   "theorems": [
    "C34_grad_uses_stored_values",
    "C34_hess_uses_stored_values",
    "C34_other_coordinates_out_of_range",
    "C34_double_converts",
    "C34_grad_after_evaluation",
    "C34_hess_after_evaluation",
    "C34_depends_only_on_point_refuted",
    "C34_safe_after_evaluation_refuted"
   ],
   "note": "the intended claim is false: refuted over the reals on 2xy; what the calls compute is characterised exactly for every history; they return the derivative when the values were last evaluated at the point and the other coordinates truncate to term numbers, and are undefined when they do not"
  },
  {
   "property": "C35",
   "status": "proved",
   "theorems": [
    "C35_value_linear",
    "C35_gradient_linear",
    "C35_hessian_linear",
    "C35_fresh_series_vanishes"
   ],
   "note": ""
  },
  {
   "property": "C36",
   "status": "proved",
   "theorems": [
    "C36_print_then_read",
    "C36_printed_table",
    "C36_read_ignores_indices",
    "C36_read_breaks_off",
    "C36_printed_products"
   ],
   "note": "number printing and reading are parameters assumed inverse; printing and reading order, indices and layout are modelled; a text that breaks off leaves the other coefficients as they were"
  },
  {
   "property": "C37",
   "status": "proved",
   "theorems": [
    "C37_values_reach_the_series",
    "C37_derivatives_throw"
   ],
   "note": "the refutation part (derivatives unreachable) is C37_derivatives_throw"
  },
  {
   "property": "C38",
   "status": "proved",
   "theorems": [
    "C38_sample_functions",
    "C38_first_piece",
    "C38_no_piece",
    "C38_in_piece",
    "C38_piece_number",
    "C38_cases_exhaustive",
    "C38_condition_throws",
    "C38_nested",
    "C38_eval_grad",
    "C38_eval_hess"
   ],
   "note": "for pieces of any class that computes a family of functions (C38_sample_functions: those of the sample library; C38_nested: piecewise functions again)"
  },
  {
   "property": "C39",
   "status": "proved",
   "theorems": [
    "C39_simple_forms",
    "C39_in_piece"
   ],
   "note": ""
  },
  {
   "property": "C40",
   "status": "proved",
   "theorems": [
    "C40_conditions_hold",
    "C40_conditions_fail",
    "C40_conditions_throw",
    "C40_conditions_kept",
    "C40_getter_refuted",
    "C40_getter",
    "C40_fresh",
    "C40_one_piece",
    "C40_miss"
   ],
   "note": "the claim is false: refuted; what the getters return is characterised exactly for every history; right within one piece and right after an evaluation"
  },
  {
   "property": "C41",
   "status": "proved",
   "theorems": [
    "C41_piece_csrc",
    "C41_piece_sym",
    "C41_piece_latex",
    "C41_latex_refuted",
    "C41_piece_latex_short",
    "C41_whole_csrc",
    "C41_whole_sym",
    "C41_whole_latex",
    "C41_latex_empty_refuted",
    "C41_undefined_part"
   ],
   "note": "false for latex with three or more conditions and for an empty piece list (refuted); csrc and sym proved"
  },
  {
   "property": "C42",
   "status": "proved",
   "theorems": [
    "C42_make",
    "C42_set",
    "C42_values",
    "C42_hands_out",
    "C42_components",
    "C42_clear_undefined",
    "C42_copy",
    "C42_copy_default_refuted",
    "C42_assign_undefined"
   ],
   "note": "clear, copying a default-constructed object and assignment are undefined behaviour: refuted or characterised exactly"
  },
  {
   "property": "C43",
   "status": "proved",
   "theorems": [
    "C43_tables",
    "C43_piecewise_too",
    "C43_headers"
   ],
   "note": "for every set of files: the tables hold exactly the declared classes or the program exits on a repeated one; types distinct, tables rectangular, piecewise classes filed twice"
  },
  {
   "property": "C44",
   "status": "proved",
   "theorems": [
    "C44_declared_as_defined",
    "C44_checkout",
    "C44_checkout_exact",
    "C44_declared_twice_refuted"
   ],
   "note": "declarations equal definitions; checkout yields exactly the filed classes when containers are distinct from declared input types; otherwise a refuted witness shows a function declared twice"
  },
  {
   "property": "C45",
   "status": "proved",
   "theorems": [
    "C45_found",
    "C45_not_found",
    "C45_layout",
    "C45_layout_iff",
    "C45_trailing_blank_refuted",
    "C45_comma_refuted"
   ],
   "note": "The claim 'layout does not matter' is false: refuted (trailing blank, comma). Exactly what is found in a line, what is filed for every layout of a declaration, and that the types are filed as meant iff no blanks stand behind them and the output type has no comma, are proved."
  },
  {
   "property": "C46",
   "status": "proved",
   "theorems": [
    "C46_handles_are_values",
    "C46_delete_twice",
    "C46_all_deleted",
    "C46_call_null",
    "C46_copied_handle_refuted",
    "C46_max_size_limit",
    "C46_max_size_unlimited",
    "C46_size",
    "C46_resize",
    "C46_resize_negative"
   ],
   "note": "for handles used through their own variable; a copied handle is freed twice (refuted); ScalarField pointers are C54"
  },
  {
   "property": "C47",
   "status": "proved",
   "theorems": [
    "C47_monomials",
    "C47_chebyshev",
    "C47_chebyshev_cos",
    "C47_sizes",
    "C47_quadratic",
    "C47_myfunc",
    "C47_bowl_value",
    "C47_bowl_gradient",
    "C47_bowl_hessian",
    "C47_bowl_gradient_everywhere_refuted",
    "C47_bowl_hessian_everywhere_refuted",
    "C47_bowl_nan",
    "C47_polynomial_texts",
    "C47_cone_texts"
   ],
   "note": "over the reals; Monomial, Chebyshev, Quadratic and MyFunc for every argument; the piecewise sample off the boundaries of its pieces (refuted on them); C++ and symbolic texts read by a parser, latex texts not"
  },
  {
   "property": "C48",
   "status": "proved",
   "theorems": [
    "C48_second_read_2d",
    "C48_second_read_3d",
    "C48_second_read_contents",
    "C48_second_read_box",
    "C48_same_file_twice",
    "C48_new_field_doubled",
    "C48_old_field_out_of_bounds",
    "C48_second_file_refuted",
    "C48_second_read_refuted"
   ],
   "note": "What a second read does is proved for every body and text in any arithmetic (2D and 3D); the doubling and the out-of-bounds evaluation of earlier fields are proved over the reals for every 2D mesh of rectangles read twice; that the second file's values are those it describes, and that two readable files can be read in turn, are refuted by computed witnesses."
  },
  {
   "property": "C49",
   "status": "proved",
   "theorems": [
    "C49_careful_is_safe",
    "C49_nothing_leaks",
    "C49_careless_is_undefined",
    "C49_until_destroyed",
    "C49_destruction_refuted",
    "C49_file_2d_refuted",
    "C49_file_3d_refuted",
    "C49_copy_refuted",
    "C49_assign_refuted",
    "C49_copied_field_refuted",
    "C49_cloned_field_refuted",
    "C49_cloned_copy_refuted"
   ],
   "note": "Careful programs (Spec/Life.v: read off the program's text) are safe and leak nothing if Interpolator's destructor were virtual, and the first careless operation is undefined. The code's destructor is not virtual: refuted, with the exact condition (some body with interpolators is destroyed) and from every readable file with a cell. Copying and assigning bodies, and fields outliving their body, refuted for every program."
  },
  {
   "property": "C50",
   "status": "proved",
   "theorems": [
    "C50_bad_cell_2d",
    "C50_bad_cell_3d",
    "C50_unsupported_type_2d",
    "C50_unsupported_type_3d",
    "C50_no_points_2d",
    "C50_no_points_3d",
    "C50_forms",
    "C50_short_data_2d_any_arithmetic",
    "C50_short_data_3d_any_arithmetic",
    "C50_short_data_2d",
    "C50_short_data_3d",
    "C50_incomplete_headers_2d",
    "C50_incomplete_headers_3d",
    "C50_uncounted_2d",
    "C50_uncounted_3d",
    "C50_too_many_points"
   ],
   "note": "Bad cells, no points: undefined behaviour in any arithmetic and for any tail; other types: exit. Short data: out of bounds for every claimed point whose bin holds an interpolator naming a node without datum (any arithmetic), hence for every point of every cell with such a corner (reals, rectangles and boxes). Header lines of the data part without name or count: filled in with what was read before; a field before any count is undefined. Signed counts and node numbers are covered (a negative one stands for its residue modulo 2^64); a negative number of points throws length_error."
  },
  {
   "property": "C51",
   "status": "proved",
   "theorems": [
    "C51_local_2d_reals",
    "C51_local_3d_reals",
    "C51_local_2d_binary64",
    "C51_local_3d_binary64",
    "C51_infinite_neighbour_refuted",
    "C51_not_finite_2d",
    "C51_not_finite_3d",
    "C51_nan_2d",
    "C51_nan_3d"
   ],
   "note": "Locality in reals (all points of rectangle and box meshes) and bitwise in binary64 (any mesh read, finite data); refuted with an infinite datum in the same bin. Non-finite coordinates: throw or undefined, NaN first: always undefined."
  },
  {
   "property": "C52",
   "status": "proved",
   "theorems": [
    "C52_name_fits",
    "C52_name_overruns",
    "C52_name_cut",
    "C52_checkout",
    "C52_checkout_unknown",
    "C52_setnew",
    "C52_set",
    "C52_set_keeps_results_refuted",
    "C52_set_unknown",
    "C52_no_sets",
    "C52_bad_pointers",
    "C52_coefficients",
    "C52_sample_series"
   ],
   "note": "setnew/set for all histories of library sets and all sizes the coefficient array supports; C52_set_keeps_results_refuted shows set losing stored results. PExtern.cc's one-line forwards of evaluation calls are those of the series and function models (C31-C35)."
  },
  {
   "property": "C53",
   "status": "proved",
   "theorems": [
    "C53_calls",
    "C53_calls_fit_refuted",
    "C53_reached",
    "C53_text",
    "C53_series_default_refuted",
    "C53_series",
    "C53_set",
    "C53_print",
    "C53_read",
    "C53_read_stops",
    "C53_print_then_read",
    "C53_digits_lost_refuted",
    "C53_digits_enough",
    "C53_digits_unique"
   ],
   "note": "The table of calls and of C prototypes is transcribed by hand from the Python files and PExtern.cc (with line numbers). str and float of Python are parameters; C53_digits_lost_refuted/C53_digits_enough say what any digit-limited str does, also for C36's stream output."
  },
  {
   "property": "C54",
   "status": "proved",
   "theorems": [
    "C54_c_interface",
    "C54_find",
    "C54_find_unknown",
    "C54_alive",
    "C54_dead",
    "C54_delete_field",
    "C54_second_read",
    "C54_references_stay_valid_refuted"
   ],
   "note": "Fields are opaque values with a name; what a call on one does is C18-C27. Deleting a body frees its vector here; the undefined deletion of its interpolators is C49."
  },
  {
   "property": "C55",
   "status": "proved",
   "theorems": [
    "C55_exit_order",
    "C55_order",
    "C55_declared",
    "C55_included",
    "C55_extern",
    "C55_extern_refuted",
    "C55_same_name_refuted"
   ],
   "note": "Order independence under the condition of C44_checkout_exact (containers distinct and not themselves input types). C interface compatibility as an equivalence; refuted without its right hand side. Repeated class names in different tables refuted."
  },
  {
   "property": "C56",
   "status": "proved",
   "theorems": [
    "C56_text",
    "C56_calls",
    "C56_class",
    "C56_defined_twice_refuted",
    "C56_container_refuted"
   ],
   "note": "For libraries whose types contain no quote, slash, hash or backslash and have matching angle brackets. Preprocessor lines and comments are skipped by the reader. Refuted for types that differ in layout only and for template classes with a comma in the output type."
  },
  {
   "property": "C57",
   "status": "proved",
   "theorems": [
    "C57_run",
    "C57_ends",
    "C57_no_feedback",
    "C57_rerun",
    "C57_twice",
    "C57_missing",
    "C57_nowhere",
    "C57_in_the_way",
    "C57_includes",
    "C57_includes_refuted",
    "C57_time"
   ],
   "note": "Disks without permissions or size limits; the options as parsed; the compiler commands of --compile are C67. Include lookup as beside the source, then the directories in order. Refuted for headers of the same name with different content."
  },
  {
   "property": "C58",
   "status": "proved",
   "theorems": [
    "C58_mesh_reads",
    "C58_mesh_reads_unresolved_refuted",
    "C58_mesh_reads_flat_refuted",
    "C58_value_error",
    "C58_gradient_error",
    "C58_mixed_derivative_error",
    "C58_pure_second_derivative",
    "C58_gradient_edge_refuted"
   ],
   "note": "2D meshes of quads. Flocq binary64, round to nearest even, no fused or extended evaluation. Gradients on element edges (within 4 roundoffs) excluded from the bound and refuted there."
  },
  {
   "property": "C59",
   "status": "proved",
   "theorems": [
    "C59_value_error",
    "C59_gradient_error",
    "C59_hessian_error",
    "C59_error_is_linear"
   ],
   "note": "Flocq binary64, round to nearest even, no fused or extended evaluation. Relative to the sum of the sizes of the terms, not to the result (cancellation)."
  },
  {
   "property": "C60",
   "status": "proved",
   "theorems": [
    "C60_monomial_series_value",
    "C60_monomial_series_gradient",
    "C60_monomial_series_hessian",
    "C60_chebyshev_error",
    "C60_monomial_error",
    "C60_growth",
    "C60_chebyshev_absolute",
    "C60_chebyshev_digits_refuted",
    "C60_series_value",
    "C60_series_gradient",
    "C60_series_hessian"
   ],
   "note": "Flocq binary64, round to nearest even, no fused or extended evaluation. The bound is relative to the polynomial with positive signs; that no bound near one roundoff holds is C60_chebyshev_digits_refuted."
  },
  {
   "property": "C61",
   "status": "proved",
   "theorems": [
    "C61_objects_are_values",
    "C61_nothing_leaks",
    "C61_classes",
    "C61_quadratic_copies_keep",
    "C61_myfunc_copies_keep",
    "C61_quad_copies_are_new",
    "C61_hexahedron_copies_are_new",
    "C61_piece_copies_are_new",
    "C61_quad_eval",
    "C61_hexahedron_eval",
    "C61_quadratic_eval",
    "C61_myfunc_eval",
    "C61_piece_eval",
    "C61_copies_forget",
    "C61_copies_keep_refuted",
    "C61_assigned_parts_freed_twice",
    "C61_assigned_parts_gone",
    "C61_assignment_refuted",
    "C61_piece_assignment",
    "C61_piece_assignment_refuted"
   ],
   "note": "Memory as heaps of parts, pointer arrays and tables; Quad and Hexahedron for self-assignment only, pieces without assignment (what the others do is proved separately: C61_copies_forget, C61_assigned_*, C61_piece_assignment). Allocation always succeeds."
  },
  {
   "property": "C62",
   "status": "proved",
   "theorems": [
    "C62_sets_are_families",
    "C62_one_term",
    "C62_all_terms",
    "C62_classes",
    "C62_monomials",
    "C62_chebyshev"
   ],
   "note": "Programs with sets of one class; the PFunction of each term is taken as a value of its own (C28). Sizes are unsigned; _description left out."
  },
  {
   "property": "C63",
   "status": "proved",
   "theorems": [
    "C63_coordinate_text",
    "C63_coordinate_reread",
    "C63_coordinate_seventeen",
    "C63_reads_nearest",
    "C63_reads_too_large",
    "C63_prints_digits",
    "C63_prints_only_digits",
    "C63_reread",
    "C63_six_digits_kept",
    "C63_seventeen_digits",
    "C63_tiny_refuted",
    "C63_not_finite",
    "C63_series",
    "C63_series_seventeen",
    "C63_infinity_refuted",
    "C63_saved_monomial",
    "C63_saved_gradient",
    "C63_saved_hessian",
    "C63_saved_chebyshev_gradient",
    "C63_saved_chebyshev_hessian",
    "C63_saved_monomial_gradient",
    "C63_saved_monomial_hessian",
    "C63_saved_series",
    "C63_saved_chebyshev",
    "C63_saved_seventeen"
   ],
   "note": "The texts are those of libstdc++/glibc in the C locale (a model of the standard library, not of /repo). Violations proved: C63_tiny_refuted, C63_infinity_refuted."
  },
  {
   "property": "C64",
   "status": "proved",
   "theorems": [
    "C64_box_file_gradient",
    "C64_file_derivatives",
    "C64_rounded_boxes",
    "C64_box_file_value",
    "C64_rounded_mesh",
    "C64_file_value",
    "C64_close_coordinates_refuted"
   ],
   "note": "Composes C29/C38 (reading), C58 and C66 (rounding of values) and C63 (numerals), for meshes of rectangles and for one layer of boxes, values and derivatives. Violation proved: C64_close_coordinates_refuted."
  },
  {
   "property": "C65",
   "status": "proved",
   "theorems": [
    "C65_products",
    "C65_stored_products",
    "C65_one_factor",
    "C65_one_set",
    "C65_all_sets",
    "C65_derivatives",
    "C65_no_such_variable_refuted"
   ],
   "note": "Violation proved: C65_no_such_variable_refuted (basis_grad by a variable that does not exist)."
  },
  {
   "property": "C66",
   "status": "proved",
   "theorems": [
    "C66_mesh_reads",
    "C66_evaluates",
    "C66_value_error",
    "C66_gradient_error",
    "C66_pure_second_derivative",
    "C66_value_layers_refuted"
   ],
   "note": "Values and gradients for meshes with one layer; violation proved for stacked boxes: C66_value_layers_refuted."
  },
  {
   "property": "C67",
   "status": "proved",
   "theorems": [
    "C67_library_arguments",
    "C67_extern_arguments",
    "C67_link_arguments",
    "C67_paths",
    "C67_run",
    "C67_status_ignored",
    "C67_library_made_refuted",
    "C67_no_shell",
    "C67_blank_refuted",
    "C67_injection"
   ],
   "note": "Violations proved: C67_blank_refuted, C67_injection (any command can be smuggled in by the location), C67_library_made_refuted, C67_no_shell."
  },
  {
   "property": "C68",
   "status": "proved",
   "theorems": [
    "C68_nothing_done",
    "C68_runs",
    "C68_library",
    "C68_no_directories",
    "C68_status_refuted"
   ],
   "note": "The options as boost's parser yields them: its reading of the words is not modelled. Violation proved: C68_status_refuted."
  }
 ]
}