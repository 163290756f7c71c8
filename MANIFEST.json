{
 "claims": [
  {
   "property": "C01",
   "status": "proved",
   "theorems": [
    "C01_hessian_symmetric_framed"
   ],
   "note": "All sizes, index pairs, values, scalar types, static/dynamic, build flags."
  },
  {
   "property": "C02",
   "status": "proved",
   "theorems": [
    "C02_storage_layout"
   ],
   "note": "Storage is exactly the documented list; all four accessors read it."
  },
  {
   "property": "C03",
   "status": "proved",
   "theorems": [
    "C03_hm_full",
    "C03_hm_zeros",
    "C03_hm_other_mode"
   ],
   "note": ""
  },
  {
   "property": "C04",
   "status": "proved",
   "theorems": [
    "C04_set_hm",
    "C04_arrays_round_trip",
    "C04_gradient_round_trip"
   ],
   "note": ""
  },
  {
   "property": "C05",
   "status": "proved",
   "theorems": [
    "C05_create_round_trip",
    "C05_pickle_round_trip"
   ],
   "note": "create and pickle halves, all sizes up to the std::vector limit."
  },
  {
   "property": "C06",
   "status": "partial",
   "theorems": [
    "C06_create_lengths_partial",
    "C06_empty_refuted",
    "C06_empty_data_gives_size_minus_one"
   ],
   "note": "Holds for all non-empty data; false for empty data (size -1)."
  },
  {
   "property": "C07",
   "status": "proved",
   "theorems": [
    "C07_zero",
    "C07_constant",
    "C07_variable",
    "C07_empty",
    "C07_sizeless"
   ],
   "note": ""
  },
  {
   "property": "C08",
   "status": "partial",
   "theorems": [
    "C08_negative_sizes_partial",
    "C08_refuted",
    "C08_first_order_minus_one_accepted",
    "C08_second_order_negative_accepted"
   ],
   "note": "The code rejects only first-order sizes <= -2; all other negative sizes are accepted."
  },
  {
   "property": "C09",
   "status": "proved",
   "theorems": [
    "C09_variables"
   ],
   "note": ""
  },
  {
   "property": "C10",
   "status": "proved",
   "theorems": [
    "C10_wrong_size_rejected",
    "C10_right_size_accepted"
   ],
   "note": ""
  },
  {
   "property": "C11",
   "status": "partial",
   "theorems": [
    "C11_mismatch_rejected_partial",
    "C11_atan2_refuted",
    "C11_hypot3_refuted",
    "C11_atan2_mismatch_behaviour",
    "C11_hypot3_mismatch_behaviour"
   ],
   "note": "False for atan2 and the third operand of hypot; their behaviour is characterised for all sizes."
  },
  {
   "property": "C12",
   "status": "proved",
   "theorems": [
    "C12_unary_safe",
    "C12_binary_safe",
    "C12_hypot3_safe",
    "C12_assign_safe",
    "C12_scalar_assign_safe"
   ],
   "note": "Any scalar type, any contents, static/dynamic, all build flags."
  },
  {
   "property": "C13",
   "status": "partial",
   "theorems": [
    "C13_pad_right_partial",
    "C13_C14_shrinking_refuted",
    "C13_C14_shrinking_is_undefined"
   ],
   "note": "Growing proved; shrinking is an out-of-bounds write instead of an exception."
  },
  {
   "property": "C14",
   "status": "partial",
   "theorems": [
    "C14_pad_left_partial",
    "C13_C14_shrinking_refuted",
    "C13_C14_shrinking_is_undefined"
   ],
   "note": "Growing proved; shrinking is an out-of-bounds write instead of an exception."
  },
  {
   "property": "C15",
   "status": "proved",
   "theorems": [
    "C15_pad_right_commutes",
    "C15_pad_left_commutes"
   ],
   "note": "All expressions, exact reals."
  },
  {
   "property": "C16",
   "status": "proved",
   "theorems": [
    "C16_first_derivatives_exact"
   ],
   "note": "All expressions and points of the open domain; exact reals."
  },
  {
   "property": "C17",
   "status": "proved",
   "theorems": [
    "C17_second_derivatives_exact"
   ],
   "note": "All expressions and points of the open domain; exact reals."
  },
  {
   "property": "C18",
   "status": "proved",
   "theorems": [
    "C18_eval_is_taylor",
    "C18_eval_reads_prefix"
   ],
   "note": ""
  },
  {
   "property": "C19",
   "status": "proved",
   "theorems": [
    "C19_eval_approximates"
   ],
   "note": ""
  },
  {
   "property": "C20",
   "status": "proved",
   "theorems": [
    "C20_add_assign",
    "C20_sub_assign",
    "C20_mul_assign",
    "C20_scalar_assign",
    "C20_div_assign",
    "C20_C21_C27_binary64"
   ],
   "note": "Bit-for-bit for +,-,* and scalars over any scalar type with the stated laws; division over the reals."
  },
  {
   "property": "C21",
   "status": "partial",
   "theorems": [
    "C21_add_self",
    "C21_sub_self",
    "C21_div_self",
    "C21_mul_self_partial",
    "C21_mul_self_refuted",
    "C21_mul_self_computes",
    "C21_mul_by_own_value_computes"
   ],
   "note": "False for x *= x on second-order numbers (Hessian 2 f h + 4 f g g instead of 2 f h + 2 g g); proved for +, -, / and first order."
  },
  {
   "property": "C22",
   "status": "proved",
   "theorems": [
    "C22_comparisons_are_of_values",
    "C22_real_comparisons_consistent",
    "C22_nan",
    "C22_finite"
   ],
   "note": ""
  },
  {
   "property": "C23",
   "status": "proved",
   "theorems": [
    "C23_abs_any_scalar",
    "C23_abs_real",
    "C16_first_derivatives_exact",
    "C17_second_derivatives_exact"
   ],
   "note": "Derivatives: C16/C17 cover expressions with abs wherever the argument is nonzero."
  },
  {
   "property": "C24",
   "status": "proved",
   "theorems": [
    "C24_first_order_is_truncation"
   ],
   "note": "All programs, any scalar type, including aliased in-place operators."
  },
  {
   "property": "C25",
   "status": "proved",
   "theorems": [
    "C25_static_dynamic_same_data"
   ],
   "note": "All programs, any scalar type."
  },
  {
   "property": "C26",
   "status": "proved",
   "theorems": [
    "C26_scalar_is_constant",
    "C26_scalar_side_bit_for_bit"
   ],
   "note": ""
  },
  {
   "property": "C27",
   "status": "proved",
   "theorems": [
    "C27_commutative_bit_for_bit",
    "C27_ring_laws",
    "C20_C21_C27_binary64"
   ],
   "note": ""
  },
  {
   "property": "C28",
   "status": "proved",
   "theorems": [
    "C28_division_inverts_multiplication"
   ],
   "note": ""
  },
  {
   "property": "C29",
   "status": "proved",
   "theorems": [
    "C29_identities_everywhere",
    "C29_identities_positive",
    "C29_identities_nonzero",
    "C29_identities_unit_interval",
    "C29_acosh",
    "C29_tan",
    "C29_identities_two_operands",
    "C29_atan2_is_atan_of_quotient"
   ],
   "note": ""
  },
  {
   "property": "C30",
   "status": "proved",
   "theorems": [
    "C30_hypot3_consistent"
   ],
   "note": ""
  },
  {
   "property": "C31",
   "status": "proved",
   "theorems": [
    "C31_lookup",
    "C31_absent_is_zero",
    "C31_stored_is_found",
    "C31_size_counts_names",
    "C31_binary_names",
    "C31_unary_names",
    "C31_expression_names"
   ],
   "note": "Any scalar type."
  },
  {
   "property": "C32",
   "status": "proved",
   "theorems": [
    "C32_sparse_exact"
   ],
   "note": "All expressions and points of the open domain; exact reals."
  },
  {
   "property": "C33",
   "status": "proved",
   "theorems": [
    "C33_expressions_order_free",
    "C33_programs_order_free",
    "C33_model_included",
    "C33_eval_order_free"
   ],
   "note": "Bit-for-bit for any scalar type; eval over the reals."
  },
  {
   "property": "C34",
   "status": "proved",
   "theorems": [
    "C34_variables_agree",
    "C34_operands_agree",
    "C34_programs_agree"
   ],
   "note": "Exact reals; programs without r *= r and r /= r (C35)."
  },
  {
   "property": "C35",
   "status": "partial",
   "theorems": [
    "C35_distinct_operands",
    "C35_scalar_operands",
    "C35_other_operands_unchanged",
    "C35_self_partial",
    "C35_self_mul_refuted",
    "C35_self_div_refuted",
    "C35_self_computes",
    "C35_self_mul_right_iff"
   ],
   "note": "False for x *= x and x /= x; what they compute is characterised."
  },
  {
   "property": "C36",
   "status": "partial",
   "theorems": [
    "C36_eval_linear_partial",
    "C36_taylor_refuted",
    "C36_defined_refuted",
    "C36_iso_eval_defined_iff_empty",
    "C36_dense_eval_adds_value"
   ],
   "note": "False: eval omits the value and compares iterators of different containers; characterised."
  },
  {
   "property": "C37",
   "status": "partial",
   "theorems": [
    "C37_values",
    "C37_self_division_refuted",
    "C37_agrees_with_assignment_refuted",
    "C37_assignment_correctly_rounded",
    "C37_accuracy_partial",
    "C37_exact_reciprocal_partial",
    "C37_tiny_self_division"
   ],
   "note": "False: a/b is a*(1/b), rounded twice (49/49 != 1; infinite for subnormal b); a /= b is correctly rounded. Error bound proved."
  },
  {
   "property": "C38",
   "status": "partial",
   "theorems": [
    "C38_finite_at_zero_refuted",
    "C38_exponent_one_refuted",
    "C38_exponent_zero_at_zero",
    "C38_exponent_one_at_zero",
    "C38_exponent_two_at_zero_partial",
    "C38_larger_exponents_at_zero_partial",
    "C38_natural_power_is_product_partial"
   ],
   "note": "False at value 0 for exponents 0 and 1 (NaN), under ISO C Annex F's special cases of pow; true from exponent 2 on."
  },
  {
   "property": "C39",
   "status": "partial",
   "theorems": [
    "C39_static_converting_ctor_partial",
    "C39_static_list_ctor_partial",
    "C39_refuted",
    "C39_list_refuted",
    "C39_dynamic_converting_ctor_malformed",
    "C39_dynamic_default_ctor_malformed",
    "C39_static_default_ctor_uninitialised",
    "C39_dynamic_list_ctor",
    "C39_static_list_ctor_short"
   ],
   "note": "False for dynamic types; the behaviour is characterised for all inputs."
  },
  {
   "property": "C40",
   "status": "partial",
   "theorems": [
    "C40_index_asserted_partial",
    "C40_flat_index_asserted_partial",
    "C40_debug_refuted",
    "C40_release_refuted",
    "C40_mutable_gradient_minus_one_is_the_value",
    "C40_release_gradient_reads_hessian",
    "C40_first_order_hessian_out_of_bounds",
    "C40_eval_short_increment_out_of_bounds"
   ],
   "note": "Debug assertions proved; the gaps are refuted and characterised."
  },
  {
   "property": "C41",
   "status": "proved",
   "theorems": [
    "C41_variables"
   ],
   "note": "Every list whose numbers fit into a std::vector; the class is the static one up to 15 values, the dynamic one above."
  },
  {
   "property": "C42",
   "status": "partial",
   "theorems": [
    "C42_refuted",
    "C42_check_is_inverted"
   ],
   "note": "False: the assertion is inverted; characterised for all non-empty lengths."
  },
  {
   "property": "C43",
   "status": "proved",
   "theorems": [
    "C43_program_derivatives"
   ],
   "note": "Exact reals; r *= r is excluded (see C21)."
  },
  {
   "property": "C44",
   "status": "partial",
   "theorems": [
    "C44_resize_first_order_partial",
    "C44_resize_any_order_partial",
    "C44_refuted",
    "C44_second_order_growing_moves_hessian_into_gradient",
    "C44_second_order_shrinking_moves_gradient_into_hessian"
   ],
   "note": "False for second order Hessians."
  },
  {
   "property": "C45",
   "status": "proved",
   "theorems": [
    "C45_unassigned_is_unchanged",
    "C45_copies_independent"
   ],
   "note": ""
  },
  {
   "property": "C46",
   "status": "proved",
   "theorems": [
    "C46_relabelling_commutes"
   ],
   "note": ""
  },
  {
   "property": "C47",
   "status": "proved",
   "theorems": [
    "C47_chain_rule"
   ],
   "note": ""
  },
  {
   "property": "C48",
   "status": "proved",
   "theorems": [
    "C48_same_function_same_data"
   ],
   "note": ""
  },
  {
   "property": "C49",
   "status": "proved",
   "theorems": [
    "C49_sparse_program_derivatives"
   ],
   "note": ""
  },
  {
   "property": "C50",
   "status": "proved",
   "theorems": [
    "C50_sparse_comparisons",
    "C50_sparse_abs"
   ],
   "note": ""
  },
  {
   "property": "C51",
   "status": "proved",
   "theorems": [
    "C51_correctly_rounded",
    "C51_bit_identities"
   ],
   "note": ""
  },
  {
   "property": "C52",
   "status": "partial",
   "theorems": [
    "C52_hypot_refuted",
    "C52_atan2_refuted",
    "C52_hypot_tiny",
    "C52_atan2_tiny",
    "C52_hypot_in_range_partial",
    "C52_hypot3_in_range_partial",
    "C52_atan2_in_range_partial",
    "C52_hypot_large",
    "C52_hypot_curvature",
    "C52_hypot_huge"
   ],
   "note": "False: intermediate results under- and overflow. True where the larger value lies in [2^l, 2^338] (hypot, two and three operands) or [2^l, 2^300] (atan2) and the operands' derivatives are below 2^q, for all l, q with 2q-l <= 1010 (q-l <= 500)."
  },
  {
   "property": "C53",
   "status": "partial",
   "theorems": [
    "C53_other_states_rejected",
    "C53_state_lengths_partial",
    "C53_empty_state_refuted",
    "C53_empty_state",
    "C53_utilities",
    "C53_first_order_hessian_refuted",
    "C53_first_order_hessian_out_of_bounds"
   ],
   "note": "False: the empty list unpickles to a dynamic number of size -1; hj.dd of first-order numbers reads out of bounds. Everything else proved."
  },
  {
   "property": "C54",
   "status": "proved",
   "theorems": [
    "C54_rounding_error"
   ],
   "note": "Polynomial expressions; division by constants included."
  },
  {
   "property": "C55",
   "status": "proved",
   "theorems": [
    "C55_integer_polynomials_exact",
    "C55_beyond_2_53"
   ],
   "note": ""
  },
  {
   "property": "C56",
   "status": "proved",
   "theorems": [
    "C56_set_hm_shapes",
    "C56_from_arrays_shapes"
   ],
   "note": "Nothing checks the shape; smaller matrices are read out of bounds."
  },
  {
   "property": "C57",
   "status": "proved",
   "theorems": [
    "C57_set_zero",
    "C57_adata_round_trip",
    "C57_set_adata_wrong_length"
   ],
   "note": ""
  },
  {
   "property": "C58",
   "status": "partial",
   "theorems": [
    "C58_views_stay_live_partial",
    "C58_views_after_resize",
    "C58_views_always_live_refuted"
   ],
   "note": "False after a growing resize (dangling array); true for objects that are not resized; exact condition proved."
  },
  {
   "property": "C59",
   "status": "partial",
   "theorems": [
    "C59_number_operand_shared_partial",
    "C59_float_scaling_shared_partial",
    "C59_float_shift_rebinds",
    "C59_always_in_place_refuted"
   ],
   "note": "False for += float and -= float, which are not bound and rebind the name to a new object."
  },
  {
   "property": "C60",
   "status": "partial",
   "theorems": [
    "C60_nothing_changed_partial",
    "C60_operators_throw_first",
    "C60_failed_resize",
    "C60_nothing_changed_refuted"
   ],
   "note": "False for resize: a rejected length leaves m_size changed and the object malformed. True for everything else."
  },
  {
   "property": "C61",
   "status": "proved",
   "theorems": [
    "C61_legal_sessions_are_safe"
   ],
   "note": "Any scalar type."
  },
  {
   "property": "C62",
   "status": "proved",
   "theorems": [
    "C62_sessions_are_values",
    "C62_capacities_do_not_show"
   ],
   "note": "Any scalar type."
  },
  {
   "property": "C63",
   "status": "proved",
   "theorems": [
    "C63_eval_exact_for_polynomials"
   ],
   "note": "Exact reals."
  },
  {
   "property": "C64",
   "status": "proved",
   "theorems": [
    "C64_eval_approximates_uniformly"
   ],
   "note": "Exact reals; strengthens C19, which is along one direction."
  },
  {
   "property": "C65",
   "status": "proved",
   "theorems": [
    "C65_expressions",
    "C65_programs",
    "C65_sessions",
    "C65_methods"
   ],
   "note": ""
  },
  {
   "property": "C66",
   "status": "proved",
   "theorems": [
    "C66_enclosure"
   ],
   "note": ""
  },
  {
   "property": "C67",
   "status": "proved",
   "theorems": [
    "C67_certificates",
    "C67_running_error",
    "C67_local_errors"
   ],
   "note": "No assumption on libm: its errors at the arguments occurring enter the bound. No bound (None) where an argument may leave the domain, for pow of non-positive bases, atan2 in the left half-plane."
  },
  {
   "property": "C68",
   "status": "proved",
   "theorems": [
    "C68_python_expressions_exact",
    "C68_sparse_expressions_exact",
    "C68_lowering"
   ],
   "note": ""
  },
  {
   "property": "C69",
   "status": "partial",
   "theorems": [
    "C69_other_operands_rejected",
    "C69_other_comparisons",
    "C69_number_exponents_rejected",
    "C69_float_on_the_left",
    "C69_module_hypot_partial",
    "C69_module_hypot_refuted"
   ],
   "note": "False in one point: hj.hypot is not bound for SScalar. Everything else proved."
  },
  {
   "property": "C70",
   "status": "partial",
   "theorems": [
    "C70_truth_of_dense_refuted",
    "C70_truth_of_sparse_refuted",
    "C70_truth_is_size",
    "C70_truth_is_having_names",
    "C70_truth_raises"
   ],
   "note": "False: without __bool__ Python uses __len__, so the truth value is size != 0 and raises for malformed numbers of size -1; characterised."
  },
  {
   "property": "C71",
   "status": "partial",
   "theorems": [
    "C71_dense_repr",
    "C71_sparse_repr_partial",
    "C71_sparse_repr_refuted"
   ],
   "note": "False for sparse numbers: the entries are written in iteration order. The text itself is characterised."
  },
  {
   "property": "C72",
   "status": "proved",
   "theorems": [
    "C72_sessions_exact",
    "C72_aliased_product_refuted"
   ],
   "note": "Exact reals. The refutation shows that the condition on aliased *= is needed (C21)."
  },
  {
   "property": "C73",
   "status": "proved",
   "theorems": [
    "C73_sparse_sessions_exact",
    "C73_other_objects_unchanged",
    "C73_aliased_operands_refuted"
   ],
   "note": "Exact reals. The refutation shows that the condition on aliased *= and /= is needed (C35)."
  },
  {
   "property": "C74",
   "status": "proved",
   "theorems": [
    "C74_error_bounds_under_contraction",
    "C74_uncontracted",
    "C74_integers_exact",
    "C74_contraction_matters"
   ],
   "note": "Hypothesis on libm: relative error at most k where the function is differentiable and the result does not overflow. No bound (None) where an argument may leave the domain, for pow of non-positive bases or inexact exponents, atan2 in the left half-plane."
  },
  {
   "property": "C75",
   "status": "proved",
   "theorems": [
    "C75_polynomials_over_rings",
    "C75_quotients_over_rings",
    "C75_components"
   ],
   "note": "No axioms. Cases: unsigned integers modulo 2^w, rational numbers."
  },
  {
   "property": "C76",
   "status": "proved",
   "theorems": [
    "C76_nested_derivatives",
    "C76_nth_derivative",
    "C76_dynamic_inner_throws"
   ],
   "note": "Exact reals; all levels differentiate by the same n variables. Operators with a literal on one side are modelled by the operator on two numbers. On nested types operator/ with integer exponents in pow (1192-1217, 1571) is ambiguous for the compiler as written; the theorem is about its formulas."
  },
  {
   "property": "C77",
   "status": "partial",
   "theorems": [
    "C77_dynamic_initialised_partial",
    "C77_static_copies_refuted",
    "C77_static_list",
    "C77_size_never_read",
    "C77_size_not_observable",
    "C77_mul_reference"
   ],
   "note": "True for dynamic types. False for static types by the letter of the standard: m_size is set only by the list constructor, and empty() copies an uninitialised array. Proved: the content of m_size has no effect on any session or accessor of a static type. &m_data[1 + size()] in operator*= is past the end exactly for second-order numbers without variables."
  },
  {
   "property": "C78",
   "status": "partial",
   "theorems": [
    "C78_methods",
    "C78_programs",
    "C78_sessions",
    "C78_lengths_partial",
    "C78_lengths_refuted"
   ],
   "note": "True for everything except the functions validating a length (create, the list constructor), whose check is inverted in builds without exceptions but with assertions (C42); true for them as well between the other builds."
  },
  {
   "property": "C79",
   "status": "proved",
   "theorems": [
    "C79_shorter",
    "C79_longer",
    "C79_leak"
   ],
   "note": "Wrong second derivatives without any sign (longer right operand), reads out of bounds (shorter one)."
  },
  {
   "property": "C80",
   "status": "partial",
   "theorems": [
    "C80_default",
    "C80_value",
    "C80_value_and_size",
    "C80_size",
    "C80_data",
    "C80_data_rejected_partial",
    "C80_data_single",
    "C80_data_rejected_refuted",
    "C80_gradient_keyword",
    "C80_gradient_partial",
    "C80_gradient_single",
    "C80_gradient_refuted",
    "C80_arrays",
    "C80_keyword_order",
    "C80_unknown_keyword",
    "C80_static_constant",
    "C80_static_sized",
    "C80_static_variable",
    "C80_sparse",
    "C80_static_keywords",
    "C80_static_variables",
    "C80_sparse_static",
    "C80_sizes_rejected",
    "C80_float_no_size",
    "C80_values_rejected",
    "C80_data_column",
    "C80_data_table",
    "C80_gradient_row",
    "C80_gradient_table",
    "C80_hessian_vector"
   ],
   "note": "False in two cases, both for arrays with one element given without keyword: as gradient it is taken for the size unless everything is of type float; as data of a static type it is taken for the value. Everything else proved. Relies on the behaviour of pybind11 2.11.1 and numpy written down in ModelNew.v."
  },
  {
   "property": "C81",
   "status": "partial",
   "theorems": [
    "C81_reals",
    "C81_doubles_partial",
    "C81_refuted",
    "C81_programs",
    "C81_scalars"
   ],
   "note": "True in exact arithmetic, unconditionally. False in doubles: zero times an infinite coefficient is NaN (sqrt at 0); proved that zero and NaN are the only possibilities, for every libm."
  },
  {
   "property": "C82",
   "status": "partial",
   "theorems": [
    "C82_selection",
    "C82_renumbering_partial",
    "C82_refuted"
   ],
   "note": "True if the order of the variables is kept; true for value and gradient under any renumbering. False for off-diagonal second derivatives when the order changes: the two gradient entries are multiplied in storage order and rounding is not associative."
  },
  {
   "property": "C83",
   "status": "partial",
   "theorems": [
    "C83_expressions",
    "C83_meaning",
    "C83_functions_partial",
    "C83_two_operands_partial",
    "C83_tanh_refuted",
    "C83_near_one_refuted",
    "C83_asinh_refuted",
    "C83_atan2_refuted"
   ],
   "note": "Proved for every function away from the arguments where a difference cancels or something overflows, and for every expression where the counting arithmetic gives a count. False elsewhere: tanh from 20 on, acos/asin/atanh near 1, asinh from 2^512 on, mixed derivative of atan2 near equal arguments. Hypothesis on libm: p roundings per result."
  },
  {
   "property": "C84",
   "status": "partial",
   "theorems": [
    "C84_roots_partial",
    "C84_logarithms_refuted",
    "C84_pow_refuted"
   ],
   "note": "True of sqrt, acos, asin, acosh and of pow unless the exponent becomes an integer by rounding of b - 1 or b - 2. False of the logarithms and atanh: the value is NaN, but the derivatives are finite; proved that they are those of ln|x| (1/2 ln|(1+x)/(1-x)|), to the accuracy of C83."
  },
  {
   "property": "C85",
   "status": "partial",
   "theorems": [
    "C85_in_range_partial",
    "C85_tiny_refuted",
    "C85_exact",
    "C85_flat_refuted",
    "C85_huge_refuted"
   ],
   "note": "Proved for denominators between 2^-335 and 2^335 (bounds on the derivatives in terms of the exponents). False below 2^-359, where pow(b, 3) underflows and every Hessian entry is infinite or NaN, even for division by a constant, from 2^342 on, where pow(b, 3) overflows and the second derivatives through the denominator are zero, and from 2^512 on, where pow(b, 2) overflows and the first ones are zero as well."
  },
  {
   "property": "C86",
   "status": "partial",
   "theorems": [
    "C86_unary_partial",
    "C86_binary_partial",
    "C86_ternary_partial",
    "C86_zero_tags_refuted"
   ],
   "note": "Exact reals. False if all first-order coefficients have the tag Zero: the early return skips the second-order terms and, in the writing form, leaves the derivatives of the result as they were (uninitialised for static types). No function of the library instantiates this case."
  },
  {
   "property": "C87",
   "status": "proved",
   "theorems": [
    "C87_expressions",
    "C87_programs",
    "C87_expression_run",
    "C87_program_run",
    "C87_sessions",
    "C87_eval"
   ],
   "note": "No axioms, every scalar type, every iteration order of the hash tables."
  },
  {
   "property": "C88",
   "status": "proved",
   "theorems": [
    "C88_variables",
    "C88_expressions",
    "C88_programs",
    "C88_sessions"
   ],
   "note": "Exact reals (in doubles the two sums are rounded differently). Sessions create numbers with constant and variable; numbers created from a table of derivatives are excluded because two entries of one table cannot get the same name."
  },
  {
   "property": "C89",
   "status": "partial",
   "theorems": [
    "C89_expressions",
    "C89_variables",
    "C89_programs",
    "C89_programs_any_order",
    "C89_exact_expressions_partial",
    "C89_exact_programs_partial",
    "C89_exact_refuted"
   ],
   "note": "Values: the same bits, always. Derivatives: the same bits if the operands store all names and no constants are converted to numbers; otherwise the same up to the sign of zero or the dense one is NaN. False without this: sqrt(u) + v at u = 0 has derivative NaN by v for dense numbers and 1 for sparse ones. Programs without r *= r and r /= r (C35)."
  },
  {
   "property": "C90",
   "status": "proved",
   "theorems": [
    "C90_expressions",
    "C90_programs",
    "C90_expression_run",
    "C90_program_run",
    "C90_sessions",
    "C90_one_name",
    "C90_one_name_programs"
   ],
   "note": "No axioms, every scalar type, every iteration order of the hash tables."
  },
  {
   "property": "C91",
   "status": "proved",
   "theorems": [
    "C91_expressions",
    "C91_any_order",
    "C91_programs",
    "C91_programs_any_order",
    "C91_sessions",
    "C91_derivatives",
    "C91_eval",
    "C91_comparisons"
   ],
   "note": "No axioms. Expressions with abs, programs and sessions need a relation respected by comparisons as well."
  },
  {
   "property": "C92",
   "status": "proved",
   "theorems": [
    "C92_enclosure",
    "C92_running_error",
    "C92_relative",
    "C92_contraction",
    "C92_uncontracted",
    "C92_integers"
   ],
   "note": "Expressions without abs, inside the domains. Where the certificate is None nothing is claimed. Hypotheses on libm as in C74 and C83."
  },
  {
   "property": "C93",
   "status": "partial",
   "theorems": [
    "C93_rounded_partial",
    "C93_accuracy_partial",
    "C93_determines_refuted",
    "C93_same_text",
    "C93_as_written",
    "C93_monotone",
    "C93_not_finite",
    "C93_dense"
   ],
   "note": "False: six significant digits are written (1000000 and 1000001 have the same text). Proved: the text denotes the value correctly rounded to six digits, and numbers have the same text iff they agree to six digits. Assumes that the stream converts as printf %.6g, correctly rounded, in the classic locale."
  },
  {
   "property": "C94",
   "status": "partial",
   "theorems": [
    "C94_reads_partial",
    "C94_determines_partial",
    "C94_determines_refuted"
   ],
   "note": "False if names contain blanks: the derivative of 'x +2*dy' looks like two derivatives. True for names without blanks."
  },
  {
   "property": "C95",
   "status": "proved",
   "theorems": [
    "C95_values",
    "C95_orders",
    "C95_storage",
    "C95_sparse"
   ],
   "note": "Python threads: the bindings never release the interpreter's lock, so that statements are executed one after the other. Threads of C++ programs are not modelled. Reading an array includes those on shared objects; two threads may not hold names of one object that either of them changes (C95_shared_change)."
  },
  {
   "property": "C96",
   "status": "proved",
   "theorems": [
    "C96_any_order",
    "C96_python_sum",
    "C96_dot_defined",
    "C96_matrix_products",
    "C96_dot_exact",
    "C96_norm_exact",
    "C96_mirrored",
    "C96_any_order_refuted",
    "C96_sums_of_doubles"
   ],
   "note": "Order independence and associativity: scalars from a commutative ring. With doubles the order matters (C96_any_order_refuted); the error of sums is bounded. What numpy and Eigen do with the entries is taken as a tree of binary operations."
  },
  {
   "property": "C97",
   "status": "proved",
   "theorems": [
    "C97_values",
    "C97_sparse",
    "C97_calls",
    "C97_calls_sparse",
    "C97_static",
    "C97_moved_from",
    "C97_rearranged",
    "C97_rearranged_sparse",
    "C97_sorted",
    "C97_sorted_sparse",
    "C97_order_real",
    "C97_order_double",
    "C97_sorted_refuted"
   ],
   "note": "No axioms except for the orders of reals and doubles. Sorting needs values without NaN (C97_sorted_refuted); the sorting algorithm is insertion sort, other algorithms are covered by C97_rearranged. The special members are the compiler's; their effect on std::vector and std::unordered_map is taken from the C++ standard."
  },
  {
   "property": "C98",
   "status": "proved",
   "theorems": [
    "C98_graded",
    "C98_graded_programs",
    "C98_real_seeds",
    "C98_signs",
    "C98_powers_of_two",
    "C98_powers_of_two_programs",
    "C98_powers_of_two_refuted"
   ],
   "note": "C98_graded is the general form, for relations between any two scalar types. Powers of two: for the derivatives whose mark is kept in a run with marked doubles; without such a condition it is false because of underflow (C98_powers_of_two_refuted)."
  },
  {
   "property": "C99",
   "status": "proved",
   "theorems": [
    "C99_sparse",
    "C99_sparse_granted",
    "C99_sparse_valid",
    "C99_sparse_others",
    "C99_half_reads",
    "C99_known_names",
    "C99_retry",
    "C99_retry_refuted",
    "C99_unchanged_refuted",
    "C99_dense",
    "C99_dense_granted",
    "C99_dense_unchanged",
    "C99_static",
    "C99_dense_requests",
    "C99_resize",
    "C99_resize_refused",
    "C99_resize_unchanged_refuted"
   ],
   "note": "No axioms. The strong guarantee is false for in-place operators of sparse numbers (C99_unchanged_refuted; trying again counts the value twice, C99_retry_refuted) and for resize. One request stands for all allocations of one container operation; what a failed container operation leaves is taken from the C++ standard. Programs of the statement language; the exception leaves the program."
  },
  {
   "property": "C100",
   "status": "proved",
   "theorems": [
    "C100_mean_value_form",
    "C100_taylor_form",
    "C100_centred_form",
    "C100_monotonicity_test",
    "C100_convexity_test",
    "C100_injectivity_test",
    "C100_newton_step"
   ],
   "note": "Expressions without abs, the whole box inside the (open) domains, scalar operations that enclose those of the reals, elements denoting convex sets. Existence of roots only for one variable. C100_sample: integer intervals with outward rounding are such a type."
  },
  {
   "property": "C101",
   "status": "proved",
   "theorems": [
    "C101_at_the_solution",
    "C101_newton",
    "C101_near_the_solution"
   ],
   "note": "Exact reals, one unknown (several: C102), any number of parameters. That the equation defines a function xi with the derivatives in question is assumed, not derived (implicit function theorem). The Hessian needs one step more than the gradient (sqrt_steps)."
  },
  {
   "property": "C102",
   "status": "proved",
   "theorems": [
    "C102_at_the_solution",
    "C102_newton",
    "C102_near_the_solution"
   ],
   "note": "Exact reals. That the system defines functions xi with the derivatives in question is assumed, not derived (implicit function theorem). Convergence under row sums below 1 (maximum norm), not under a spectral radius below 1."
  },
  {
   "property": "C103",
   "status": "proved",
   "theorems": [
    "C103_expressions",
    "C103_any_order",
    "C103_programs",
    "C103_programs_any_order",
    "C103_sessions",
    "C103_eval",
    "C103_real_seeds",
    "C103_signs",
    "C103_powers_of_two",
    "C103_powers_of_two_programs"
   ],
   "note": "The first six are the general form, for relations between any two scalar types, without axioms. Sessions create rescaled variables with SScalar(v, {k: seed}). Powers of two: for the derivatives whose mark is kept in a run with marked doubles; without such a condition it is false because of underflow, as for dense numbers (C98_powers_of_two_refuted)."
  },
  {
   "property": "C104",
   "status": "proved",
   "theorems": [
    "C104_mean_value_form",
    "C104_centred_form",
    "C104_monotonicity_test",
    "C104_injectivity_test",
    "C104_newton_step"
   ],
   "note": "Formulas without abs, defined on the whole box; eval with the shared end iterator (C36 for the ISO view)."
  },
  {
   "property": "C105",
   "status": "proved",
   "theorems": [
    "C105_at_the_solution",
    "C105_newton",
    "C105_near_the_solution",
    "C105_steps_exist"
   ],
   "note": "Exact real arithmetic. The last theorem for right-hand sides that are smooth at the solution and without abs."
  },
  {
   "property": "C106",
   "status": "proved",
   "theorems": [
    "C106_polynomials_over_rings",
    "C106_quotients_over_rings",
    "C106_components",
    "C106_any_order",
    "C106_python_sum",
    "C106_reductions_exist",
    "C106_matrix_products",
    "C106_dot"
   ],
   "note": "No axioms. The derivative is the algebraic one (coefficient of the infinitesimal). Arrays of objects are taken as trees of binary operations, as in C96."
  },
  {
   "property": "C107",
   "status": "proved",
   "theorems": [
    "C107_statement",
    "C107_sessions",
    "C107_granted",
    "C107_others",
    "C107_valid",
    "C107_retry",
    "C107_unchanged_refuted",
    "C107_retry_refuted"
   ],
   "note": "No axioms. One request stands for everything the interpreter and pybind11 need around a statement; what they do with it is not modelled. In-place operators do not give the strong guarantee (C107_unchanged_refuted, C107_retry_refuted). What can be read off a half-done number: C99_half_reads. Sessions with dense numbers: C108."
  },
  {
   "property": "C108",
   "status": "partial",
   "theorems": [
    "C108_statement",
    "C108_sessions",
    "C108_granted",
    "C108_left_out_partial",
    "C108_others",
    "C108_retry",
    "C108_resize",
    "C108_unchanged_refuted"
   ],
   "note": "Partial because refused resize statements change the size of the number (C108_unchanged_refuted): C108_left_out_partial is for sessions without resize; with it C108_sessions describes all ends. The order of the requests of one statement is simplified: one for the interpreter, then those of the C++ code and the result; a statement that fails otherwise fails before it asks."
  },
  {
   "property": "C109",
   "status": "partial",
   "theorems": [
    "C109_roots_partial",
    "C109_names_refuted",
    "C109_logarithms_refuted",
    "C109_pow_refuted"
   ],
   "note": "True of sqrt, acos, asin, acosh and pow (unless the exponent becomes an integer by rounding of b - 1) for all names the operand holds. False of names it does not hold (zero), of the logarithms and atanh (finite derivatives of ln |x|), and of pow with a lost exponent."
  },
  {
   "property": "C110",
   "status": "partial",
   "theorems": [
    "C110_in_range_partial",
    "C110_tiny_refuted",
    "C110_huge_refuted",
    "C110_other_names",
    "C110_constant"
   ],
   "note": "Proved for denominators between 2^-510 and 2^510 (bounds on the derivatives in terms of the exponents). False below 2^-538, where pow(b, 2) underflows, and from 2^512 on, where it overflows. The gaps in between depend on the library's pow."
  },
  {
   "property": "C111",
   "status": "partial",
   "theorems": [
    "C111_hypot",
    "C111_hypot3",
    "C111_atan2_in_range_partial",
    "C111_atan2_tiny_refuted",
    "C111_atan2_huge_refuted"
   ],
   "note": "hypot with two and three operands: proved over the whole range (2^-1020 to 2^1020). atan2: proved between 2^-500 and 2^509; false below 2^-540 and from 2^512 on, where the sum of squares is zero or infinite."
  },
  {
   "property": "C112",
   "status": "partial",
   "theorems": [
    "C112_chain_rule",
    "C112_same_function",
    "C112_division",
    "C112_everywhere",
    "C112_positive",
    "C112_nonzero",
    "C112_unit_interval",
    "C112_acosh",
    "C112_tan",
    "C112_two_operands",
    "C112_atan2_is_atan_of_quotient",
    "C112_hypot3",
    "C112_natural_powers",
    "C112_names_refuted"
   ],
   "note": "Proved for values and derivatives. The names stored depend on how a formula is written (C112_names_refuted), their derivatives are then 0."
  },
  {
   "property": "C113",
   "status": "partial",
   "theorems": [
    "C113_functions_partial",
    "C113_variable_partial",
    "C113_two_variables_partial",
    "C113_tanh_refuted",
    "C113_near_one_refuted",
    "C113_asinh_refuted",
    "C113_quotient_values",
    "C113_self_division_refuted",
    "C113_agrees_with_assignment_refuted"
   ],
   "note": "Number of roundings proved for arguments where nothing cancels, overflows or underflows; false for tanh from 20 on, for acos, asin, atanh near 1, for asinh from 2^512 on. Values of x / y are a * (1 / b), rounded twice."
  },
  {
   "property": "C114",
   "status": "partial",
   "theorems": [
    "C114_finite_refuted",
    "C114_exponent_zero",
    "C114_exponent_one",
    "C114_larger_exponents"
   ],
   "note": "Proved for all natural exponents from 1 on; false for the exponent 0, where 0 * pow(0, -1) is NaN."
  },
  {
   "property": "C115",
   "status": "partial",
   "theorems": [
    "C115_one_name_partial",
    "C115_known_names_partial",
    "C115_values_partial",
    "C115_new_name_static_refuted",
    "C115_new_name_dynamic_refuted",
    "C115_new_name_dynamic_any_refuted"
   ],
   "note": "Proved for right operands without new names: no failures for any names and scalars; over the reals the sum, difference and product rules with all components; for one name over the reals the value and the entry are the derivatives up to the third. False as soon as the right operand has a name that the left one lacks: undefined behaviour for inner numbers of static size, a throw (or, with exceptions off or size 1, entries with too short a storage) for those of dynamic size. Modelled: +, -, *, their in-place forms, sin, cos, exp."
  },
  {
   "property": "C116",
   "status": "proved",
   "theorems": [
    "C116_derivatives"
   ],
   "note": "Exact reals; expressions without abs; the sparse names and the dense variables are the same n parameters. Operators with a literal on one side are modelled by the operator on two numbers."
  },
  {
   "property": "C117",
   "status": "proved",
   "theorems": [
    "C117_second_derivatives"
   ],
   "note": "Exact reals; expressions without abs, without logarithms to a base, and without pow, which does not compile for the nested type. Operators with a literal on one side are the operators on two numbers here, and the in-place operators inside unary, binary and ternary the operators that make a new number. Tables in one order at both levels; the outer order is immaterial by C33_expressions_order_free."
  },
  {
   "property": "C118",
   "status": "proved",
   "theorems": [
    "C118_sensitivities"
   ],
   "note": "Exact reals; expressions without abs. Same simplifications as C116."
  },
  {
   "property": "C119",
   "status": "partial",
   "theorems": [
    "C119_programs_partial",
    "C119_sessions_partial",
    "C119_real_programs",
    "C119_same_bits_refuted"
   ],
   "note": "Proved for exact reals, and for every scalar type against plain scalars whose division multiplies with the reciprocal, which is how the sparse class forms the value of a quotient; false for doubles with their own division (C119_same_bits_refuted). Same simplifications as C116."
  },
  {
   "property": "C120",
   "status": "partial",
   "theorems": [
    "C120_dense_programs_partial",
    "C120_dense_sessions_partial",
    "C120_real_programs",
    "C120_any_depth",
    "C120_sparse_expressions_partial",
    "C120_sparse_any_order_partial",
    "C120_real_sparse_expressions",
    "C120_real_sparse_programs",
    "C120_same_bits_refuted"
   ],
   "note": "Proved for exact reals, and for every scalar type against plain scalars whose division multiplies with the reciprocal, which is how both classes form the value of a quotient; false for doubles with their own division (C120_same_bits_refuted). Nested sparse numbers: programs for exact reals, for other scalars expressions only, since /= of the outer class (2316) uses the in-place division of the inner one, whose value is not formed with the reciprocal. Same simplifications as C76 and C116."
  }
 ]
}
