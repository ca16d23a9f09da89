{
 "claims": [
  {
   "property": "C01",
   "status": "proved",
   "theorems": [
    "C01_connectives_exact",
    "C01_mixed_operands",
    "C01_negation_exact",
    "C01_negation_defined",
    "C01_formula_sound",
    "C01_formula_exact",
    "C01_formula_total",
    "C01_laws"
   ],
   "note": ""
  },
  {
   "property": "C02",
   "status": "partial",
   "theorems": [
    "C02_strict_orderings_exact",
    "C02_weak_orderings_partial",
    "C02_weak_orderings_refuted",
    "C02_negation_refuted",
    "C02_mixed_operands"
   ],
   "note": "< and > exact; >= and <= exact except for one pair of operands, for which the property is refuted (lookup table entry)."
  },
  {
   "property": "C03",
   "status": "proved",
   "theorems": [
    "C03_projections",
    "C03_trichotomy",
    "C03_negation",
    "C03_bool_agrees"
   ],
   "note": ""
  },
  {
   "property": "C04",
   "status": "proved",
   "theorems": [
    "C04_from_bits",
    "C04_to_bits",
    "C04_history",
    "C04_illegal_failfast",
    "C04_order_irrelevant",
    "C04_unlisted_contains",
    "C04_initializer_list",
    "C04_bits_roundtrip",
    "C04_from_to_bits"
   ],
   "note": ""
  },
  {
   "property": "C05",
   "status": "proved",
   "theorems": [
    "C05_equality_exact",
    "C05_inequality_exact",
    "C05_unassigned_debug"
   ],
   "note": ""
  },
  {
   "property": "C06",
   "status": "proved",
   "theorems": [
    "C06_contains_index",
    "C06_value",
    "C06_value_failfast",
    "C06_contains_set",
    "C06_contains_value"
   ],
   "note": ""
  },
  {
   "property": "C07",
   "status": "proved",
   "theorems": [
    "C07_sgn",
    "C07_signs_times_interval",
    "C07_signs_times_scalar",
    "C07_sign_negation_exact",
    "C07_sign_product_exact",
    "C07_sign_product_mixed",
    "C07_scalar_signs"
   ],
   "note": "The empty sign set is excluded from the set product (there the code returns {0} for {0}*{}), as in the statement."
  },
  {
   "property": "C08",
   "status": "proved",
   "theorems": [
    "C08_relational_exact",
    "C08_unassigned_fails_fast"
   ],
   "note": ""
  },
  {
   "property": "C09",
   "status": "proved",
   "theorems": [
    "C09_order_axioms",
    "C09_nan_vacuous"
   ],
   "note": ""
  },
  {
   "property": "C10",
   "status": "proved",
   "theorems": [
    "C10_assign_unassigned",
    "C10_history_hull",
    "C10_order_irrelevant",
    "C10_hull_least"
   ],
   "note": ""
  },
  {
   "property": "C11",
   "status": "proved",
   "theorems": [
    "C11_contains_value",
    "C11_contains_interval",
    "C11_encloses",
    "C11_overlaps",
    "C11_matches",
    "C11_matches_value",
    "C11_value"
   ],
   "note": ""
  },
  {
   "property": "C12",
   "status": "partial",
   "theorems": [
    "C12_copy",
    "C12_constructor",
    "C12_from_unordered_bounds",
    "C12_no_inverted_partial",
    "C12_no_inverted_int",
    "C12_no_inverted_refuted"
   ],
   "note": "Proved for integers, and for floating point when no interval with exactly one NaN end point is constructed; refuted otherwise."
  },
  {
   "property": "C13",
   "status": "proved",
   "theorems": [
    "C13_add",
    "C13_sub",
    "C13_neg"
   ],
   "note": ""
  },
  {
   "property": "C14",
   "status": "proved",
   "theorems": [
    "C14_mul",
    "C14_scalar_factor"
   ],
   "note": ""
  },
  {
   "property": "C15",
   "status": "proved",
   "theorems": [
    "C15_nan_exact"
   ],
   "note": ""
  },
  {
   "property": "C16",
   "status": "partial",
   "theorems": [
    "C16_div_encloses_partial",
    "C16_div_encloses_refuted",
    "C16_div_zero_free"
   ],
   "note": "Proved if a zero end point of the divisor has the sign of the interior; refuted for interval{1.}/interval{-1.,0.}."
  },
  {
   "property": "C17",
   "status": "proved",
   "theorems": [
    "C17_add",
    "C17_sub",
    "C17_mul",
    "C17_div",
    "C17_div_scalar",
    "C17_unary"
   ],
   "note": ""
  },
  {
   "property": "C18",
   "status": "proved",
   "theorems": [
    "C18_square_cube_abs",
    "C18_square_in_product"
   ],
   "note": ""
  },
  {
   "property": "C19",
   "status": "proved",
   "theorems": [
    "C19_min_max",
    "C19_scalar_min_max",
    "C19_infimum_supremum",
    "C19_bounds"
   ],
   "note": ""
  },
  {
   "property": "C20",
   "status": "partial",
   "theorems": [
    "C20_floor",
    "C20_ceil",
    "C20_round",
    "C20_sqrt",
    "C20_sqrt_domain",
    "C20_frac_partial",
    "C20_frac_refuted",
    "C20_floor_meaning",
    "C20_ceil_meaning",
    "C20_round_meaning"
   ],
   "note": "floor, ceil, round, sqrt: exact hulls in every format. frac: enclosure for finite elements; refuted for infinite ones (frac(inf) is NaN)."
  },
  {
   "property": "C21",
   "status": "proved",
   "theorems": [
    "C21_cbrt",
    "C21_exp",
    "C21_atan",
    "C21_log",
    "C21_asin",
    "C21_acos",
    "C21_log_domain",
    "C21_asin_domain",
    "C21_acos_domain",
    "C21_exact_functions"
   ],
   "note": "The library functions are parameters; the theorems assume that they are monotone on their domain, which is proved of the exact functions."
  },
  {
   "property": "C22",
   "status": "proved",
   "theorems": [
    "C22_cos",
    "C22_sin"
   ],
   "note": "Exact real arithmetic."
  },
  {
   "property": "C23",
   "status": "partial",
   "theorems": [
    "C23_tan_partial",
    "C23_tan_wide",
    "C23_tan_iff",
    "C23_tan_refuted"
   ],
   "note": "Exact real arithmetic: hull without poles, everything for widths of at least a period; refuted for narrower intervals containing a pole. C23_tan_iff says exactly which intervals get an enclosing result. Machine arithmetic: C69."
  },
  {
   "property": "C24",
   "status": "proved",
   "theorems": [
    "C24_atan2",
    "C24_operands",
    "C24_atan2_meaning"
   ],
   "note": "Exact real arithmetic."
  },
  {
   "property": "C25",
   "status": "partial",
   "theorems": [
    "C25_pow_nonneg",
    "C25_pow_integer_partial",
    "C25_pow_nan_partial",
    "C25_pow_refuted",
    "C25_pow_negative_machine"
   ],
   "note": "Exact real arithmetic: proved except for negative bases with exponents beyond long long, where the behaviour is undefined (refuted). Machine arithmetic: which exponents of an all-negative base give NaN and which are undefined behaviour."
  },
  {
   "property": "C26",
   "status": "partial",
   "theorems": [
    "C26_exact",
    "C26_float_partial",
    "C26_small_float_partial",
    "C26_half_open_refuted",
    "C26_precondition"
   ],
   "note": "Exact arithmetic: proved with uniqueness. Floating point: closed range or NaN after overflow; half-open range refuted (result equal to max)."
  },
  {
   "property": "C27",
   "status": "partial",
   "theorems": [
    "C27_fractional_weights",
    "C27_blend_fractions",
    "C27_blend_linear",
    "C27_scalar",
    "C27_scalar_quadratic",
    "C27_blend_fractions_returns",
    "C27_blend_linear_returns",
    "C27_fractional_weights_refuted"
   ],
   "note": "In exact arithmetic the results are the exact hulls of the scalar results and the weights lie in [0,1]; in machine arithmetic blend_fractions and blend_linear never fail for valid arguments; the corresponding claim for fractional_weights is refuted (rounding makes a lower bound exceed an upper bound)."
  },
  {
   "property": "C28",
   "status": "partial",
   "theorems": [
    "C28_isinf",
    "C28_isfinite_partial",
    "C28_isfinite_refuted",
    "C28_isnan",
    "C28_scalar"
   ],
   "note": "Exact for all non-NaN intervals; isfinite of the NaN interval is refuted (it returns {true}). The predicates of numbers are characterised for every floating-point format."
  },
  {
   "property": "C29",
   "status": "proved",
   "theorems": [
    "C29_narrow",
    "C29_unassigned",
    "C29_narrow_cast"
   ],
   "note": "All pairs of signed integer widths."
  },
  {
   "property": "C30",
   "status": "proved",
   "theorems": [
    "C30_condition_value",
    "C30_double_negation",
    "C30_negation_inwards"
   ],
   "note": "Double negation is stated for conditions made of comparisons; a negated mixture of a comparison and a plain truth value loses the comparison (C31_negated_mixture_refuted)."
  },
  {
   "property": "C31",
   "status": "proved",
   "theorems": [
    "C31_constrain_sound",
    "C31_negated_mixture_refuted"
   ],
   "note": "Includes negated disjunctions; operands of one value type, mixed types are C36."
  },
  {
   "property": "C32",
   "status": "proved",
   "theorems": [
    "C32_constrain_tight",
    "C32_not_equal"
   ],
   "note": "For floating-point types < and > give the closed interval (exact for <= and >=)."
  },
  {
   "property": "C33",
   "status": "partial",
   "theorems": [
    "C33_disjunction_partial",
    "C33_other_disjunct_refuted",
    "C33_order_of_conjuncts_refuted",
    "C33_contradictory_disjunct_refuted"
   ],
   "note": "Refuted in general by three witnesses; proved if both sides of each disjunction mention the object and conjunctions inside a disjunction are not jointly contradictory."
  },
  {
   "property": "C34",
   "status": "proved",
   "theorems": [
    "C34_constrain_within",
    "C34_other_object_rejected",
    "C34_narrowed_meanwhile_refuted"
   ],
   "note": ""
  },
  {
   "property": "C35",
   "status": "proved",
   "theorems": [
    "C35_comparison_failfast",
    "C35_conjunction_refuted",
    "C35_scalar"
   ],
   "note": "The claim does not extend to conjunctions (C35_conjunction_refuted)."
  },
  {
   "property": "C36",
   "status": "partial",
   "theorems": [
    "C36_integer_bound_partial",
    "C36_weak_comparisons",
    "C36_refuted",
    "C36_failfast_refuted",
    "C36_overflow_refuted"
   ],
   "note": "Refuted for strict comparisons (element dropped, spurious fail-fast, overflow); proved for <=, >=, ==, != and, for < and >, for the elements at least one unit away from the bound."
  },
  {
   "property": "C37",
   "status": "proved",
   "theorems": [
    "C37_interval_if_else",
    "C37_interval_certain",
    "C37_set_if_else"
   ],
   "note": ""
  },
  {
   "property": "C38",
   "status": "partial",
   "theorems": [
    "C38_merge_hull",
    "C38_intersect_partial",
    "C38_intersect_refuted",
    "C38_intersect_disjoint",
    "C38_intersect_returns",
    "C38_intersect_order_refuted",
    "C38_merge_unassigned",
    "C38_intersect_unassigned_refuted"
   ],
   "note": "merge proved, also with an unassigned first argument; intersect proved for arguments with a common element; for two disjoint arguments it returns the numbers between them, the result for more arguments depends on their order, and an unassigned argument makes the result everything (refuted)."
  },
  {
   "property": "C39",
   "status": "proved",
   "theorems": [
    "C39_assign_once",
    "C39_assign_partial",
    "C39_reset",
    "C39_branches"
   ],
   "note": ""
  },
  {
   "property": "C40",
   "status": "proved",
   "theorems": [
    "C40_lower_bound",
    "C40_upper_bound",
    "C40_lower_bound_scalar",
    "C40_upper_bound_scalar",
    "C40_partition_point_bool",
    "C40_partition_point_set",
    "C40_vacuous_predicate"
   ],
   "note": "Sorted ranges of any length over integers, floating-point numbers and iterators; std::ranges::partition_point is modelled by its halving loop with its precondition (violated: undefined behaviour). Range elements and value have one type."
  },
  {
   "property": "C41",
   "status": "proved",
   "theorems": [
    "C41_lower_bound_constrain",
    "C41_upper_bound_constrain",
    "C41_lower_bound_exact",
    "C41_upper_bound_exact",
    "C41_lower_bound_tight",
    "C41_upper_bound_tight",
    "C41_temporary_rejected",
    "C41_index_out_of_range",
    "C41_scalar_index_out_of_range",
    "C41_scalar_lower",
    "C41_scalar_upper"
   ],
   "note": "For lower_bound and upper_bound; in addition the exact elements of the result (for floating point: closed at the neighbouring element), and the rejection of partitions made for a temporary."
  },
  {
   "property": "C42",
   "status": "proved",
   "theorems": [
    "C42_enumerate_interval",
    "C42_enumerate_unassigned",
    "C42_enumerate_set",
    "C42_enumerate_empty_set",
    "C42_enumerate_scalar"
   ],
   "note": "Iterators are modelled as state machines driven by a range-for loop; termination is shown by a bound on the number of rounds."
  },
  {
   "property": "C43",
   "status": "proved",
   "theorems": [
    "C43_at_numbers",
    "C43_at_sets",
    "C43_at_out_of_range",
    "C43_at_index"
   ],
   "note": "For numbers and intervals as elements (hull) and for sets (union); assumes that the size of the range is representable in gsl::index."
  },
  {
   "property": "C44",
   "status": "proved",
   "theorems": [
    "C44_positions",
    "C44_step_positions",
    "C44_add",
    "C44_add_commuted",
    "C44_sub",
    "C44_difference",
    "C44_difference_defined",
    "C44_prev",
    "C44_next",
    "C44_deref",
    "C44_subscript"
   ],
   "note": ""
  },
  {
   "property": "C45",
   "status": "proved",
   "theorems": [
    "C45_scalar",
    "C45_max_hull",
    "C45_max_wide",
    "C45_max_list",
    "C45_plain_assignment_refuted"
   ],
   "note": "Scalar runs compute the maximum; max3 and imax return exactly the hull of the scalar results, folds over lists likewise; max2 and imax0 enclose them. The first version of README.md, with plain assignment, is refuted as README.md says."
  },
  {
   "property": "C46",
   "status": "proved",
   "theorems": [
    "C46_nearest_scalar",
    "C46_nearest_point",
    "C46_nearest",
    "C46_nearest_hull",
    "C46_linear",
    "C46_linear_scalar",
    "C46_linear_tight"
   ],
   "note": "Nearest neighbour: std::midpoint is a parameter that is required to return a number between its arguments. Linear interpolation: differences of adjacent points and values are required to be finite; integer tables must not contain coinciding points."
  },
  {
   "property": "C47",
   "status": "proved",
   "theorems": [
    "C47_expression",
    "C47_test",
    "C47_simple1_scalar",
    "C47_simple1"
   ],
   "note": "For expressions without NaN and within the domains of the functions; functions of <cmath> are assumed monotone where they occur."
  },
  {
   "property": "C48",
   "status": "proved",
   "theorems": [
    "C48_relations",
    "C48_arithmetic",
    "C48_unary"
   ],
   "note": "sqrt etc. on degenerate intervals are covered by their hull theorems."
  },
  {
   "property": "C49",
   "status": "partial",
   "theorems": [
    "C49_isotonic",
    "C49_isotonic_unary",
    "C49_isotonic_div_partial",
    "C49_isotonic_div_refuted",
    "C49_relations_grow"
   ],
   "note": "Everything but division proved; division proved for divisors without zero or with both signs, refuted for a zero end point."
  },
  {
   "property": "C50",
   "status": "proved",
   "theorems": [
    "C50_program",
    "C50_simple3",
    "C50_simple3_scalar"
   ],
   "note": "For interval runs that return; constraints are conjunctions of comparisons that mention the constrained variable. Functions of <cmath> are assumed monotone where they occur."
  },
  {
   "property": "C51",
   "status": "proved",
   "theorems": [
    "C51_add_commutes",
    "C51_mul_commutes",
    "C51_neg_neg",
    "C51_sub_is_add_neg",
    "C51_min_max",
    "C51_merge"
   ],
   "note": ""
  },
  {
   "property": "C52",
   "status": "proved",
   "theorems": [
    "C52_interval_output",
    "C52_unassigned_output",
    "C52_set_output"
   ],
   "note": ""
  },
  {
   "property": "C53",
   "status": "partial",
   "theorems": [
    "C53_sets",
    "C53_order",
    "C53_constrain",
    "C53_arithmetic",
    "C53_math",
    "C53_blend",
    "C53_iterators",
    "C53_partition",
    "C53_partition_scalar",
    "C53_mixed_arithmetic",
    "C53_mixed_relations",
    "C53_mixed_constrain",
    "C53_mixed_pow",
    "C53_mixed_weights",
    "C53_mixed_fractions",
    "C53_mixed_linear_partial",
    "C53_mixed_linear_refuted"
   ],
   "note": "All operations with debug checks except the search functions, whose results do not depend on the build (C40, C41). Refuted for blend_linear with integer weights: the debug check adds the weights, which may overflow (undefined behaviour) where the release build only divides them."
  },
  {
   "property": "C54",
   "status": "proved",
   "theorems": [
    "C54_bounds",
    "C54_extrema",
    "C54_relations",
    "C54_arithmetic",
    "C54_unary",
    "C54_math",
    "C54_sin",
    "C54_math2",
    "C54_blend",
    "C54_iterators",
    "C54_iterator_copy",
    "C54_sets",
    "C54_set_values",
    "C54_not",
    "C54_mixed",
    "C54_mixed_constrain",
    "C54_mixed_blend",
    "C54_mixed_pow"
   ],
   "note": "For arbitrary value types, including operands of different value types."
  },
  {
   "property": "C55",
   "status": "proved",
   "theorems": [
    "C55_add",
    "C55_sub",
    "C55_mul",
    "C55_div",
    "C55_div_nan",
    "C55_div_encloses",
    "C55_div_trap",
    "C55_div_refuted"
   ],
   "note": "Proved as stated for every modelled conversion. C55_div_refuted shows that the restriction to divisors without zero is needed for the hull."
  },
  {
   "property": "C56",
   "status": "partial",
   "theorems": [
    "C56_less",
    "C56_less_equal",
    "C56_equal_partial",
    "C56_not_equal_partial",
    "C56_equal_refuted"
   ],
   "note": "<, <= (and, exchanged, >, >=) exact. == and !=: the answer 'unequal' is exact and 'equal' is never missed, but 'equal' can be reported although no pair of elements is equal: C56_equal_refuted (interval{0.25,0.75} == interval{0,1})."
  },
  {
   "property": "C57",
   "status": "partial",
   "theorems": [
    "C57_convert_partial",
    "C57_convert_unassigned",
    "C57_convert_refuted",
    "C57_narrow",
    "C57_narrow_cast",
    "C57_narrow_unassigned",
    "C57_rounding",
    "C57_rounding_int",
    "C57_truncation"
   ],
   "note": "Proved for all conversions except to narrower integer types, which wrap around and lose elements (C57_convert_refuted). Narrowing to smaller floating-point formats proved as stated."
  },
  {
   "property": "C58",
   "status": "partial",
   "theorems": [
    "C58_programs_partial",
    "C58_swap",
    "C58_self_move_refuted"
   ],
   "note": "Proved for every program, including self-assignment and throwing copy constructors. The rest is false: move assignment of a variable to itself (and std::swap of a variable with itself) is undefined behaviour (C58_self_move_refuted)."
  },
  {
   "property": "C59",
   "status": "proved",
   "theorems": [
    "C59_interval",
    "C59_set",
    "C59_scalar"
   ],
   "note": "Refinement of every client program by lists of the values still to be visited, for the iterators of numbers, intervals and sets."
  },
  {
   "property": "C60",
   "status": "proved",
   "theorems": [
    "C60_lower_bound",
    "C60_upper_bound",
    "C60_lower_bound_scalar",
    "C60_upper_bound_scalar",
    "C60_lower_bound_constrain",
    "C60_upper_bound_constrain",
    "C60_lower_bound_tight",
    "C60_upper_bound_tight",
    "C60_lower_bound_exact",
    "C60_upper_bound_exact",
    "C60_weak_comparison"
   ],
   "note": "std::less<> and its three relatives; other function objects are not modelled."
  },
  {
   "property": "C61",
   "status": "partial",
   "theorems": [
    "C61_sound_partial",
    "C61_sound_refuted",
    "C61_tight",
    "C61_not_equal",
    "C61_failfast"
   ],
   "note": "Proved unless the bound of a strict comparison is the smallest (largest) number of the narrower integer type, where stepping to its neighbour overflows (C61_sound_refuted: x < INT_MIN for interval<long>). Exactness for == and != only for integers."
  },
  {
   "property": "C62",
   "status": "partial",
   "theorems": [
    "C62_to_int",
    "C62_to_int_error_partial",
    "C62_to_float",
    "C62_to_float_error_partial",
    "C62_lossless",
    "C62_error_refuted",
    "C62_undefined",
    "C62_cast_to_int",
    "C62_cast_to_float",
    "C62_unassigned"
   ],
   "note": "Refuted for values out of the range of the integer type: the conversion (to it, or back to it) is undefined behaviour instead of an error (C62_error_refuted); C62_undefined says when. Everything else proved."
  },
  {
   "property": "C63",
   "status": "partial",
   "theorems": [
    "C63_lower_bound",
    "C63_upper_bound",
    "C63_lower_constrain_partial",
    "C63_upper_constrain_partial",
    "C63_constrain_refuted",
    "C63_failfast_refuted",
    "C63_lower_tight",
    "C63_upper_tight",
    "C63_lower_exact",
    "C63_upper_exact"
   ],
   "note": "Positions proved for all conversions. The constraint is proved for narrower elements of the same kind that have a neighbour in their type; it is refuted for integer elements and a floating-point interval, where elements are lost or the program is terminated."
  },
  {
   "property": "C64",
   "status": "proved",
   "theorems": [
    "C64_domains",
    "C64_scalar_domains",
    "C64_fractional_weights",
    "C64_blend_linear",
    "C64_blend_fractions",
    "C64_scalar_weights",
    "C64_scalar_fraction",
    "C64_release"
   ],
   "note": "The scalar functions are treated in exact arithmetic; the checks of the interval functions in all formats."
  },
  {
   "property": "C65",
   "status": "proved",
   "theorems": [
    "C65_arithmetic",
    "C65_functions",
    "C65_half_ulp",
    "C65_outward_refuted"
   ],
   "note": "Operands with infinite end points: C13-C16."
  },
  {
   "property": "C66",
   "status": "proved",
   "theorems": [
    "C66_cos",
    "C66_sin",
    "C66_sin_refuted"
   ],
   "note": "The claim without deviation is refuted for sin. pow: C67; atan2: C68; tan: C69."
  },
  {
   "property": "C67",
   "status": "proved",
   "theorems": [
    "C67_formula",
    "C67_formula_integer",
    "C67_near",
    "C67_refuted"
   ],
   "note": "The claim without deviation is refuted. Powers that overflow or underflow are covered by the formula only."
  },
  {
   "property": "C68",
   "status": "proved",
   "theorems": [
    "C68_cbrt",
    "C68_log",
    "C68_exp",
    "C68_asin",
    "C68_acos",
    "C68_atan",
    "C68_atan2",
    "C68_atan2_cut"
   ],
   "note": "The accuracy eps of the C library is a hypothesis; a correctly rounding library meets it."
  },
  {
   "property": "C69",
   "status": "proved",
   "theorems": [
    "C69_tan",
    "C69_wide",
    "C69_pole_refuted"
   ],
   "note": "The claim for intervals that contain a pole is refuted, as in C23. Intervals whose width is within a few ulps of pi are covered by neither theorem."
  },
  {
   "property": "C70",
   "status": "proved",
   "theorems": [
    "C70_fractions",
    "C70_linear",
    "C70_weights",
    "C70_weights_return",
    "C70_weights_outcome",
    "C70_scalar_weights",
    "C70_scalar_fractions",
    "C70_scalar_linear",
    "C70_scalar_quadratic"
   ],
   "note": "That fractional_weights always returns for valid arguments is refuted in C27; the weights are bounded whenever they are returned, and returned unless the exact range is narrower than 6 ulps of 1/2."
  },
  {
   "property": "C71",
   "status": "partial",
   "theorems": [
    "C71_weights",
    "C71_fractions_int",
    "C71_linear_int_partial",
    "C71_linear_int_refuted",
    "C71_linear_int_zero",
    "C71_linear_int_overflow",
    "C71_fractions_float_partial",
    "C71_linear_float_partial",
    "C71_fractions_float_refuted"
   ],
   "note": "fractional_weights as stated; blend_fractions with integer fractions exact. Refuted: blend_linear with integer weights divides integers (2 and 1 give x instead of the mean; a zero first weight is undefined behaviour), and fractions and weights of a narrower floating-point type cause deviations of the order of the narrower type. What is computed instead is proved."
  },
  {
   "property": "C72",
   "status": "proved",
   "theorems": [
    "C72_nonneg",
    "C72_formula",
    "C72_nan",
    "C72_defined",
    "C72_encloses",
    "C72_representable",
    "C72_conversion_refuted"
   ],
   "note": "Converting an exponent that is not a floating-point number beforehand does change the result (C72_conversion_refuted)."
  },
  {
   "property": "C73",
   "status": "partial",
   "theorems": [
    "C73_merge",
    "C73_merge_unassigned",
    "C73_intersect_partial",
    "C73_intersect_returns",
    "C73_intersect_unassigned_refuted"
   ],
   "note": "merge proved; intersect proved for arguments with a common value; for disjoint arguments it returns a gap as in C38, and an unassigned argument makes the result everything (refuted)."
  },
  {
   "property": "C74",
   "status": "partial",
   "theorems": [
    "C74_sgn",
    "C74_sgn_nan_refuted",
    "C74_sign_product_partial",
    "C74_sign_product_enclosed_partial",
    "C74_sign_product_refuted",
    "C74_sign_times_interval",
    "C74_assign",
    "C74_merge",
    "C74_intersect_partial",
    "C74_intersect_refuted"
   ],
   "note": "proved except for three cases in which the code really differs, each with a refutation: sgn of a NaN, an infinity times the sign \"zero\", and intersect of numbers that do not lie in all the intervals."
  },
  {
   "property": "C75",
   "status": "partial",
   "theorems": [
    "C75_scalar",
    "C75_included",
    "C75_result",
    "C75_pieces",
    "C75_returns",
    "C75_repeated_refuted"
   ],
   "note": "with a repeated entry in the table the function need not return (refuted: the position between two equal entries is visited, although no value has it, and the constraint fails); the other theorems hold of all tables, or of those without repeated entries."
  },
  {
   "property": "C76",
   "status": "partial",
   "theorems": [
    "C76_expression",
    "C76_test",
    "C76_program",
    "C76_returns_partial",
    "C76_subdivision",
    "C76_returns_refuted",
    "C76_disjunction_refuted"
   ],
   "note": "inclusion is proved for programs whose constraints are conjunctions, and refuted for a disjunction; that the narrower run returns is proved if every constraint is one comparison, and refuted for a conjunction of two."
  },
  {
   "property": "C77",
   "status": "proved",
   "theorems": [
    "C77_nonneg",
    "C77_integer",
    "C77_other",
    "C77_integers",
    "C77_zero_exponent",
    "C77_base_one"
   ],
   "note": "Relative to a monotone log and exp, which are assumed of the C library."
  },
  {
   "property": "C78",
   "status": "proved",
   "theorems": [
    "C78_width",
    "C78_range",
    "C78_boxes",
    "C78_jump_refuted"
   ],
   "note": "In exact real arithmetic; rounding errors do not go to zero. The exclusion of jumps is needed (C78_jump_refuted)."
  },
  {
   "property": "C79",
   "status": "proved",
   "theorems": [
    "C79_hull",
    "C79_range",
    "C79_repeated_refuted"
   ],
   "note": "Needs single use, and for machine arithmetic square and abs of variables only; both exclusions are needed (C79_repeated_refuted). if_else is covered by C82."
  },
  {
   "property": "C80",
   "status": "proved",
   "theorems": [
    "C80_accuracy",
    "C80_scalar",
    "C80_tight",
    "C80_attained"
   ],
   "note": "Running error analysis; min, max, negation and abs add no error. cbrt, asin, acos, and rounding functions are outside of the fragment, if_else is covered by C84 (discontinuous, or no drift bound proved)."
  },
  {
   "property": "C81",
   "status": "proved",
   "theorems": [
    "C81_conjunction",
    "C81_disjunction",
    "C81_disjunction_failfast"
   ],
   "note": "The proviso is needed: C35_conjunction_refuted. A satisfiable disjunction can therefore fail (C33)."
  },
  {
   "property": "C82",
   "status": "proved",
   "theorems": [
    "C82_condition",
    "C82_if_else",
    "C82_equality_refuted"
   ],
   "note": "The exclusion of equality and of repeated variables is needed (C82_equality_refuted)."
  },
  {
   "property": "C83",
   "status": "proved",
   "theorems": [
    "C83_successive",
    "C83_order",
    "C83_repeated",
    "C83_narrower",
    "C83_discrete",
    "C83_repeated_discrete",
    "C83_continuous_refuted"
   ],
   "note": "The proviso is needed for floating-point values (C83_continuous_refuted)."
  },
  {
   "property": "C84",
   "status": "proved",
   "theorems": [
    "C84_accuracy",
    "C84_decision",
    "C84_certain",
    "C84_scalar",
    "C84_margin_refuted"
   ],
   "note": "The margin is needed (C84_margin_refuted)."
  }
 ]
}