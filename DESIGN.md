# Formal model of mbeutel/intervals in Rocq/Coq 8.16

The C++ sources under `/repo` were read as text; nothing was built or run.  The model and the proofs are in `rocq/theories`.  Every definition
that models code carries a comment with the file and lines it models and says where it simplifies.

## Shape of the development

* **Outcomes** (`Outcome.v`).  A function that can abort or misbehave returns `outcome A := Ret a | FailFast | Trap | Throw | UB`.
  `FailFast` is a violated `gsl_Expects`, `gsl_Assert` or `gsl_FailFast`.  `Trap` is the deliberate division by a volatile zero.  `Throw` is
  an exception.  `UB` is undefined behaviour: signed overflow, an out-of-range conversion, an iterator outside its range, a violated
  precondition of a standard algorithm, an access to a dead object.  `gsl_ExpectsDebug` and `gsl_AssertDebug` are checked only if the boolean
  parameter `dbg` is true; the theorems quantify over it or say which build they are about.
* **Value types** (`Num.v`, `NumLaws.v`).  The templates are parametric in a record of the operations that the code uses on `T`.  Instances:
  two's complement integers of any width (`IntNum.v`; overflow is `UB`), IEEE-754 binary formats of any precision and exponent range (`FloatNum.v`;
  Flocq's `binary_float prec emax`, round to nearest even, infinities, signed zeros, one NaN), positions in a range (`IterModel.v`), and extended reals
  with exact arithmetic (`RealNum.v`, `RealMath.v`), which separate the mathematical content from rounding.  The laws that the proofs use are
  proved for each instance (`IntProofs.v`, `FloatProofs.v`, `RealNum.v`, `IterProofs.v`, `FloatMathProofs.v`); a theorem that quantifies over
  `order_type`, `value_type`, `fp_math` or `prog_type` therefore holds for all the instances listed there, without hypothesis on the laws.
* **Model files**, one Gallina function per C++ function:

| file | models |
|---|---|
| `SetModel.v` | `set<T>` as a bit set in `N`, the logic operators of `set<bool>` with the look-up tables of the code as constants, `set<sign>`, projections, output (set.hpp, detail/set.hpp, logic.hpp, sign.hpp, detail/sign.hpp) |
| `IntervalModel.v` | construction, assignment, queries, relations, arithmetic, min, max, square, cube, abs, sgn, if_else, merge, intersect, output (interval.hpp, detail/interval.hpp) |
| `IterModel.v` | iterators as value type, iterator arithmetic, dereference, subscript, prev, next (interval.hpp 416-453, 676-700, 853-914, 1377-1388) |
| `ConstrainModel.v` | conditions with operand identities, `&`, `\|`, `!` on them, `constrain` (interval.hpp 108-186, 1484-1514; detail/interval.hpp 30-100, 244-289, 319-676) |
| `MixedModel.v` | `constrain` by an operand of another value type: an integer, or a narrower type of the same kind |
| `MixedArithModel.v` | arithmetic and relations of operands of different value types, converting constructors, narrowing of floating-point intervals |
| `MixedBlendModel.v` | blending with fractions and weights of another value type than the values (interval.hpp 1258-1337); both weights have one type, both values the common type |
| `MixedMergeModel.v` | merge and intersect of arguments of different value types |
| `ScalarModel.v` | overloads for plain numbers: sgn, products with signs, assign, reset, merge, intersect (sign.hpp 47-66, detail/sign.hpp 16-36, math.hpp 260-329) |
| `MixedPowModel.v` | pow with an exponent of a signed integer type of at most 64 bits (interval.hpp 486-526, 1057-1090); the conversion to long long and back, which does not change it, is left out |
| `MathModel.v` | mathematical functions, classification, wraparound, blending, narrowing of integer intervals (interval.hpp 482-526, 1021-1423; math.hpp) |
| `FloatMath.v`, `RealMath.v` | the scalar functions these are built from: exact ones computed, those of `<cmath>` as parameters; exact real versions |
| `AlgoModel.v` | partition_point, lower_bound, upper_bound, partitions and constraints by them, enumerate, at (algorithm.hpp, detail/algorithm.hpp) |
| `SearchModel.v` | lower_bound, upper_bound with a comparison given by the caller (algorithm.hpp 126-169) |
| `TableModel.v` | the same searches, and the constraint, with range elements of another value type |
| `FloatIntModel.v` | narrowing between floating-point and integer intervals (interval.hpp 1391-1423) |
| `EnumModel.v` | programs that use the iterators of enumerate directly (detail/algorithm.hpp 20-260) |
| `RegularModel.v` | `as_regular<T>` and programs over variables of that type (utility.hpp 12-66) |
| `LangModel.v` | client programs: expressions, tests, the branch pattern with constrain, run over numbers and over intervals (README.md, examples/simple1-3.cpp) |
| `ExampleModel.v` | the max programs of the documentation as such programs |
| `PieceModel.v` | search, enumerate, constrain and an arbitrary program for each position (the pattern of examples/interpolate-linear.cpp) |
| `InterpModel.v` | nearest-neighbour and linear interpolation in tables (examples/interpolate-nn.cpp, interpolate-linear.cpp) |

* **Specifications** (`Spec.v`, `IvlSpec.v`, `CondSpec.v`, `MathSpec.v`, `AlgoSpec.v`, `InterpSpec.v`, `MixedArithSpec.v`, `SearchSpec.v`, `WidenSpec.v`, `FloatIntSpec.v`, `TableSpec.v`, `ChecksSpec.v`, `RegularSpec.v`, `EnumSpec.v`, `RoundSpec.v`, `MachineSpec.v`, `IsoSpec.v`, `LimitSpec.v`, `UseSpec.v`, `AccuSpec.v`, `ConjSpec.v`, `ChoiceSpec.v`, `SuccSpec.v`, `DecideSpec.v`, `PowHullSpec.v`, the
  relations in `LangSpec.v`) speak about members, elements, pointwise results, hulls, sorted lists and lists of remaining values.  They refer to the
  model only for its data types, with one exception: the precondition of C47, C50, C75 and C76 that an interval run meets no NaN and leaves no function's domain (`eclean`, `pclean` in `LangSpec.v`) is
  about the run itself.
* **Property files** (`Properties*.v`) contain only the theorems, each closed by one `exact`, followed by `Print Assumptions`, with an `Example` beside it that
  shows a concrete case meeting the hypotheses.
* A claim that is false of the code is stated as a theorem `…_refuted` with a witness; what is true of it is in a theorem `…_partial`.
* **Tests of the model** (`TestsSet.v`, `TestsInterval.v`, `TestsMath.v`).  The assertions of the project's own test suite (test/test-set.cpp, test-sign.cpp, test-algorithm.cpp,
  test-interval.cpp) are transcribed and evaluated on the model; all of them pass.  These are tests, not proofs: they support the reading of the code, they are not claims of any property.
  The mathematical functions are tables of the values that glibc returns at the arguments the tests use.  Left out: `sgn(0u)` (unsigned types are not modelled), and the section on binary
  operators of pairs of sets (test-set.cpp 351-411), which compares an expression with itself.
* `seeded/LOG.jsonl` records the experiments with wrong programs.  How to read it: `lemmas_failed` are the lemmas whose
  proof scripts broke in the edited model.  The field `evidence` says what `theorems_failed` means.
  * `dependency`: the theorems that mention a broken lemma, directly or through other lemmas, found by comparing names in the
    sources.  The search stopped at the first broken lemma that any theorem depends on.  This shows that the theorem no longer
    builds.  It does **not** show that its statement is false of the edited model: a proof script can break although the
    statement still holds, and theorems that really are violated may be missing from the list.  One such case is known:
    when `narrow_cast` is replaced by `narrow`, `C62_to_int` is listed, but it remains true.
  * `refuted`: for each theorem in `theorems_refuted`, Coq proved that its statement implies False in the edited model, without
    using admitted lemmas.  The script is in `refutation`; it follows
    `seeded/prelude.txt` (for C80 also `seeded/accuracy_preamble.txt`) and starts with the hypothesis `H : statement`.  No such script succeeds on the unedited model.
  * `none`: no theorem is known to reject the edit.

  Of the entries of the first four rounds (the first 306 lines) those whose `dependency` evidence looked doubtful were repeated and are now
  `refuted`; the others have evidence `dependency` or `none`.

## Trusted base

* The kernel of Coq 8.16.1, and of the standard library the axioms listed per theorem below.  No axiom is added; no kernel check is switched off.
* The reading of the C++ code into the model.  No tool checks it.
* gsl-lite: a violated contract macro ends the call (`FailFast`); `gsl_ExpectsAudit` is not checked; `gsl::narrow` throws and `gsl::narrow_failfast` fails
  exactly if the value changes (which includes NaN); between floating-point and integer types both convert with a `static_cast`, convert back and compare, so that an out-of-range conversion is undefined behaviour.  makeshift's reflection gives a duplicate-free list of values.
* The standard library: `std::bitset`, `std::min`, `std::max`, `std::ranges::partition_point` (modelled by its halving loop; its precondition
  violated gives `UB`), `std::optional`, placement new.
* Floating point: round to nearest even, no excess precision, no contraction to fused multiply-add, no `-ffast-math`.
* `<cmath>`: `floor`, `ceil`, `round`, `sqrt`, `fabs` are computed as IEEE-754 defines them.  `cbrt`, `exp`, `log`, `asin`, `acos`, `atan` are parameters, and the theorems
  about them assume monotonicity on the domain (`fp_math`); it is proved of the exact functions.  `cos`, `sin`, `tan`, `atan2`, `pow` are treated in exact
  real arithmetic, where they are the functions of the standard library; C66 compares the machine intervals of `cos` and `sin` with them, for a `cos` of given accuracy,
  C67 those of `pow`, for a `log` and `exp` of given accuracy, C68 those of `cbrt`, `log`, `exp`, `asin`, `acos`, `atan`, `atan2`, and C69 those of `tan`.
  `fmod` is computed as IEEE-754 defines it, in the format of `T`; the unqualified inner call in `wraparound` (math.hpp 32) might be computed in `double` for other `T`, depending on what `<cmath>` declares outside of `std`.  `std::midpoint` is a parameter required to return a value between its arguments.

## Not modelled

* Compile-time machinery: concepts, traits, deduction guides, `static_assert`s, deleted overloads, the tuple protocol and `std::common_type` specialisations,
  `constexpr` evaluation.  What does not compile has no counterpart: unsigned value types, arithmetic of integer intervals narrower than `int`, `pow` with an integer
  base, `merge` with an argument after the first that does not have the common type, `if_else` of iterators, `partitioning::operator[]` over iterators as values.
* Value categories, except through the identity of condition operands (`OpId` for an object with an address, `OpVal` for temporaries and scalars).
* In a release build the conversion of the result of `constrain` to an interval resets an unassigned result to the canonical unassigned state; the model copies it.
  The two differ only for an unassigned argument, whose use is rejected in debug builds.
* Streams, except as lists of tokens; exceptions other than those of `gsl::narrow` and of copy constructors in `as_regular`.

## Axioms per theorem

As printed by `Print Assumptions` below each theorem.  A theorem about all value types covers the floating-point types and so lists the axioms that
Flocq inherits from the standard library's real numbers.

**None ("Closed under the global context")** — 122 theorems:

C01_connectives_exact, C01_mixed_operands, C01_negation_exact, C01_negation_defined, C01_formula_sound, C01_formula_exact, C01_formula_total, C01_laws, C02_strict_orderings_exact, C02_weak_orderings_partial, C02_weak_orderings_refuted, C02_negation_refuted, C02_mixed_operands, C03_projections, C03_trichotomy, C03_negation, C03_bool_agrees, C04_from_bits, C04_to_bits, C04_history, C04_illegal_failfast, C04_order_irrelevant, C04_unlisted_contains, C04_initializer_list, C04_bits_roundtrip, C04_from_to_bits, C05_equality_exact, C05_inequality_exact, C05_unassigned_debug, C06_contains_index, C06_value, C06_value_failfast, C06_contains_set, C06_contains_value, C07_sign_negation_exact, C07_sign_product_exact, C07_sign_product_mixed, C07_scalar_signs, C08_unassigned_fails_fast, C11_contains_value, C12_copy, C12_constructor, C12_no_inverted_int, C17_add, C17_sub, C17_mul, C17_div, C17_div_scalar, C17_unary, C26_precondition, C29_narrow, C29_unassigned, C29_narrow_cast, C35_scalar, C37_set_if_else, C38_intersect_refuted, C38_intersect_order_refuted, C39_assign_once, C39_reset, C40_partition_point_bool, C40_partition_point_set, C40_vacuous_predicate, C41_index_out_of_range, C41_scalar_index_out_of_range, C42_enumerate_unassigned, C42_enumerate_set, C42_enumerate_empty_set, C42_enumerate_scalar, C43_at_sets, C43_at_out_of_range, C43_at_index, C44_positions, C44_step_positions, C44_add, C44_add_commuted, C44_sub, C44_difference, C44_difference_defined, C44_prev, C44_next, C45_plain_assignment_refuted, C52_unassigned_output, C52_set_output, C53_sets, C53_order, C53_constrain, C53_arithmetic, C53_math, C53_iterators, C53_partition, C53_partition_scalar, C53_mixed_arithmetic, C53_mixed_relations, C53_mixed_constrain, C53_mixed_pow, C53_mixed_fractions, C54_bounds, C54_extrema, C54_relations, C54_arithmetic, C54_unary, C54_math, C54_math2, C54_blend, C54_iterators, C54_iterator_copy, C54_sets, C54_set_values, C54_not, C54_mixed, C54_mixed_constrain, C54_mixed_blend, C54_mixed_pow, C57_convert_refuted, C58_programs_partial, C58_swap, C58_self_move_refuted, C59_set, C59_scalar, C61_sound_refuted, C74_intersect_refuted, C75_scalar.

**`ClassicalDedekindReals.sig_forall_dec`, `FunctionalExtensionality.functional_extensionality_dep`** — 10 theorems:

C27_fractional_weights, C27_blend_fractions, C27_blend_linear, C27_scalar, C46_nearest_point, C47_simple1_scalar, C47_simple1, C64_scalar_fraction, C64_release, C78_boxes.

**`ClassicalDedekindReals.sig_forall_dec`, `ClassicalDedekindReals.sig_not_dec`, `Classical_Prop.classic`, `FunctionalExtensionality.functional_extensionality_dep`** — 334 theorems:

C07_sgn, C07_signs_times_interval, C07_signs_times_scalar, C08_relational_exact, C09_order_axioms, C09_nan_vacuous, C10_assign_unassigned, C10_history_hull, C10_order_irrelevant, C10_hull_least, C11_contains_interval, C11_encloses, C11_overlaps, C11_matches, C11_matches_value, C11_value, C12_from_unordered_bounds, C12_no_inverted_partial, C12_no_inverted_refuted, C13_add, C13_sub, C13_neg, C14_mul, C14_scalar_factor, C15_nan_exact, C16_div_encloses_partial, C16_div_encloses_refuted, C16_div_zero_free, C18_square_cube_abs, C18_square_in_product, C19_min_max, C19_scalar_min_max, C19_infimum_supremum, C19_bounds, C20_floor, C20_ceil, C20_round, C20_sqrt, C20_sqrt_domain, C20_frac_partial, C20_frac_refuted, C20_floor_meaning, C20_ceil_meaning, C20_round_meaning, C21_cbrt, C21_exp, C21_atan, C21_log, C21_asin, C21_acos, C21_log_domain, C21_asin_domain, C21_acos_domain, C21_exact_functions, C22_cos, C22_sin, C23_tan_partial, C23_tan_wide, C23_tan_iff, C23_tan_refuted, C24_atan2, C24_operands, C24_atan2_meaning, C25_pow_nonneg, C25_pow_integer_partial, C25_pow_nan_partial, C25_pow_refuted, C25_pow_negative_machine, C26_exact, C26_float_partial, C26_small_float_partial, C26_half_open_refuted, C27_scalar_quadratic, C27_blend_fractions_returns, C27_blend_linear_returns, C27_fractional_weights_refuted, C28_isinf, C28_isfinite_partial, C28_isfinite_refuted, C28_isnan, C28_scalar, C30_condition_value, C30_double_negation, C30_negation_inwards, C31_constrain_sound, C31_negated_mixture_refuted, C32_constrain_tight, C32_not_equal, C33_disjunction_partial, C33_other_disjunct_refuted, C33_order_of_conjuncts_refuted, C33_contradictory_disjunct_refuted, C34_constrain_within, C34_other_object_rejected, C34_narrowed_meanwhile_refuted, C35_comparison_failfast, C35_conjunction_refuted, C36_integer_bound_partial, C36_weak_comparisons, C36_refuted, C36_failfast_refuted, C36_overflow_refuted, C37_interval_if_else, C37_interval_certain, C38_merge_hull, C38_intersect_partial, C38_intersect_disjoint, C38_intersect_returns, C38_merge_unassigned, C38_intersect_unassigned_refuted, C39_assign_partial, C39_branches, C40_lower_bound, C40_upper_bound, C40_lower_bound_scalar, C40_upper_bound_scalar, C41_lower_bound_constrain, C41_upper_bound_constrain, C41_lower_bound_exact, C41_upper_bound_exact, C41_lower_bound_tight, C41_upper_bound_tight, C41_temporary_rejected, C41_scalar_lower, C41_scalar_upper, C42_enumerate_interval, C43_at_numbers, C44_deref, C44_subscript, C45_scalar, C45_max_hull, C45_max_wide, C45_max_list, C46_nearest_scalar, C46_nearest, C46_nearest_hull, C46_linear, C46_linear_scalar, C46_linear_tight, C47_expression, C47_test, C48_relations, C48_arithmetic, C48_unary, C49_isotonic, C49_isotonic_unary, C49_isotonic_div_partial, C49_isotonic_div_refuted, C49_relations_grow, C50_program, C50_simple3, C50_simple3_scalar, C51_add_commutes, C51_mul_commutes, C51_neg_neg, C51_sub_is_add_neg, C51_min_max, C51_merge, C52_interval_output, C53_blend, C53_mixed_weights, C53_mixed_linear_partial, C53_mixed_linear_refuted, C54_sin, C55_add, C55_sub, C55_mul, C55_div, C55_div_nan, C55_div_encloses, C55_div_trap, C55_div_refuted, C56_less, C56_less_equal, C56_equal_partial, C56_not_equal_partial, C56_equal_refuted, C57_convert_partial, C57_convert_unassigned, C57_narrow, C57_narrow_cast, C57_narrow_unassigned, C57_rounding, C57_rounding_int, C57_truncation, C59_interval, C60_lower_bound, C60_upper_bound, C60_lower_bound_scalar, C60_upper_bound_scalar, C60_lower_bound_constrain, C60_upper_bound_constrain, C60_lower_bound_tight, C60_upper_bound_tight, C60_lower_bound_exact, C60_upper_bound_exact, C60_weak_comparison, C61_sound_partial, C61_tight, C61_not_equal, C61_failfast, C62_to_int, C62_to_int_error_partial, C62_to_float, C62_to_float_error_partial, C62_lossless, C62_error_refuted, C62_undefined, C62_cast_to_int, C62_cast_to_float, C62_unassigned, C63_lower_bound, C63_upper_bound, C63_lower_constrain_partial, C63_upper_constrain_partial, C63_constrain_refuted, C63_failfast_refuted, C63_lower_tight, C63_upper_tight, C63_lower_exact, C63_upper_exact, C64_domains, C64_scalar_domains, C64_fractional_weights, C64_blend_linear, C64_blend_fractions, C64_scalar_weights, C65_arithmetic, C65_functions, C65_half_ulp, C65_outward_refuted, C66_cos, C66_sin, C66_sin_refuted, C67_formula, C67_formula_integer, C67_near, C67_refuted, C68_cbrt, C68_log, C68_exp, C68_asin, C68_acos, C68_atan, C68_atan2, C68_atan2_cut, C69_tan, C69_wide, C69_pole_refuted, C70_fractions, C70_linear, C70_weights, C70_weights_return, C70_weights_outcome, C70_scalar_weights, C70_scalar_fractions, C70_scalar_linear, C70_scalar_quadratic, C71_weights, C71_fractions_int, C71_linear_int_partial, C71_linear_int_refuted, C71_linear_int_zero, C71_linear_int_overflow, C71_fractions_float_partial, C71_linear_float_partial, C71_fractions_float_refuted, C72_nonneg, C72_formula, C72_nan, C72_defined, C72_encloses, C72_representable, C72_conversion_refuted, C73_merge, C73_merge_unassigned, C73_intersect_partial, C73_intersect_returns, C73_intersect_unassigned_refuted, C74_sgn, C74_sgn_nan_refuted, C74_sign_product_partial, C74_sign_product_enclosed_partial, C74_sign_product_refuted, C74_sign_times_interval, C74_assign, C74_merge, C74_intersect_partial, C75_included, C75_result, C75_pieces, C75_returns, C75_repeated_refuted, C76_expression, C76_test, C76_program, C76_returns_partial, C76_subdivision, C76_returns_refuted, C76_disjunction_refuted, C77_nonneg, C77_integer, C77_other, C77_integers, C77_zero_exponent, C77_base_one, C78_width, C78_range, C78_jump_refuted, C79_hull, C79_range, C79_repeated_refuted, C80_accuracy, C80_scalar, C80_tight, C80_attained, C81_conjunction, C81_disjunction, C81_disjunction_failfast, C82_condition, C82_if_else, C82_equality_refuted, C83_successive, C83_order, C83_repeated, C83_narrower, C83_discrete, C83_repeated_discrete, C83_continuous_refuted, C84_accuracy, C84_decision, C84_certain, C84_scalar, C84_margin_refuted.

## Properties

For each property: what is modelled, how it is proved, and, if partial, what is missing.  The exact theorem names are in `MANIFEST.json`
and in the column on the right (file; names without the `Cnn_` prefix).

| id | status | model and proof | theorems |
|---|---|---|---|
| C01 | proved | Look-up tables as binary constants. All operand pairs by computation, lifted to members; formulas of any size by induction, with exactness for formulas in which no variable occurs twice. | `Set`: connectives_exact, mixed_operands, negation_exact, negation_defined, formula_sound, formula_exact, formula_total, laws |
| C02 | partial | As C01. **Missing:** < and > exact; >= and <= exact except for one pair of operands, for which the property is refuted (lookup table entry). | `Set`: strict_orderings_exact, weak_orderings_partial, weak_orderings_refuted, negation_refuted, mixed_operands |
| C03 | proved | Projections of the four sets by computation, stated over members. | `Set`: projections, trichotomy, negation, bool_agrees |
| C04 | proved | `std::bitset` as `N`. Induction over operation histories against the list of values given since the last reset; index search over the reflection list by induction. | `Checks`: from_bits, to_bits; `Set`: history, illegal_failfast, order_irrelevant, unlisted_contains, initializer_list, bits_roundtrip, from_to_bits |
| C05 | proved | Bitwise operations on `N`; membership of bit positions; any number of enumerators. | `Set`: equality_exact, inequality_exact, unassigned_debug |
| C06 | proved | As C05; `value` by the characterisation of powers of two. | `Checks`: contains_index; `Set`: value, value_failfast, contains_set, contains_value |
| C07 | proved | Sign sets by computation; products with intervals generic over the value type. | `Interval`: sgn, signs_times_interval, signs_times_scalar; `Set`: sign_negation_exact, sign_product_exact, sign_product_mixed, scalar_signs |
| C08 | proved | Order reasoning over a total preorder with NaN, generic over the value type; witnesses are end points. | `Interval`: relational_exact, unassigned_fails_fast |
| C09 | proved | From the exact values of C08. | `Interval`: order_axioms, nan_vacuous |
| C10 | proved | Induction over histories of resets and assignments with a hull invariant. | `Checks`: assign_unassigned; `Interval`: history_hull, order_irrelevant, hull_least |
| C11 | proved | Order reasoning, generic over the value type. | `Interval`: contains_value, contains_interval, encloses, overlaps, matches, matches_value, value |
| C12 | partial | Inductively defined closure of the public operations; invariant `not (upper < lower)`. **Missing:** Proved for integers, and for floating point when no interval with exactly one NaN end point is constructed; refuted otherwise. | `Checks`: copy; `Interval`: constructor, from_unordered_bounds, no_inverted_partial, no_inverted_int, no_inverted_refuted |
| C13 | proved | Monotone machine operations: value map into extended reals, each operation the rounding of the exact one; end points attained by construction. | `Arith`: add, sub, neg |
| C14 | proved | As C13, with the four-corner argument for products. | `Arith`: mul, scalar_factor |
| C15 | proved | Case analysis on infinities and zeros: characterisation of the pairs with NaN result. | `Arith`: nan_exact |
| C16 | partial | Quotient monotone in each quadrant; sign cases of the divisor. **Missing:** Proved if a zero end point of the divisor has the sign of the interior; refuted for interval{1.}/interval{-1.,0.}. | `Arith`: div_encloses_partial, div_encloses_refuted, div_zero_free |
| C17 | proved | Integers of any width in `Z`; overflow is `UB`; exactness in both directions. | `Arith`: add, sub, mul, div, div_scalar, unary |
| C18 | proved | Case distinction on the sign of the bounds; generic. | `Arith`: square_cube_abs, square_in_product |
| C19 | proved | Order reasoning. | `Arith`: min_max, scalar_min_max, infimum_supremum, bounds |
| C20 | partial | Rounding functions on binary floats: monotonicity and integer value from Flocq; meaning theorems give floor, ceil and round in the reals. **Missing:** floor, ceil, round, sqrt: exact hulls in every format. frac: enclosure for finite elements; refuted for infinite ones (frac(inf) is NaN). | `Math`: floor, ceil, round, sqrt, sqrt_domain, frac_partial, frac_refuted, floor_meaning, ceil_meaning, round_meaning |
| C21 | proved | Library functions as parameters, monotone on their domain; domain checks in debug builds; instance with the exact functions. | `Math`: cbrt, exp, atan, log, asin, acos, log_domain, asin_domain, acos_domain, exact_functions |
| C22 | proved | `cos` by quadrants of the code over the reals; periodicity and monotonicity of the standard library's `cos`. | `Math`: cos, sin |
| C23 | partial | As C22 for `tan`. **Missing:** Exact real arithmetic: hull without poles, everything for widths of at least a period; refuted for narrower intervals containing a pole. C23_tan_iff says exactly which intervals get an enclosing result. Machine arithmetic: C69. | `Math`: tan_partial, tan_wide, tan_iff, tan_refuted |
| C24 | proved | Branch-cut analysis over the reals; atan2 monotone along each side of the box. | `Math`: atan2, operands, atan2_meaning |
| C25 | partial | Powers over the reals by cases of the code; integer powers by induction. **Missing:** Exact real arithmetic: proved except for negative bases with exponents beyond long long, where the behaviour is undefined (refuted). Machine arithmetic: which exponents of an all-negative base give NaN and which are undefined behaviour. | `Math`: pow_nonneg, pow_integer_partial, pow_nan_partial, pow_refuted, pow_negative_machine |
| C26 | partial | Exact reals for congruence and range; binary floats for the range. **Missing:** Exact arithmetic: proved with uniqueness. Floating point: closed range or NaN after overflow; half-open range refuted (result equal to max). | `Math`: exact, float_partial, small_float_partial, half_open_refuted, precondition |
| C27 | partial | Exact reals for hulls; binary floats for the absence of spurious failure. **Missing:** In exact arithmetic the results are the exact hulls of the scalar results and the weights lie in [0,1]; in machine arithmetic blend_fractions and blend_linear never fail for valid arguments; the corresponding claim for fractional_weights is refuted (rounding makes a lower bound exceed an upper bound). | `Blend`: fractional_weights, blend_fractions, blend_linear, scalar, scalar_quadratic, blend_fractions_returns, blend_linear_returns, fractional_weights_refuted |
| C28 | partial | Case analysis on infinities in the interval. **Missing:** Exact for all non-NaN intervals; isfinite of the NaN interval is refuted (it returns {true}). The predicates of numbers are characterised for every floating-point format. | `Blend`: isinf, isfinite_partial, isfinite_refuted, isnan, scalar |
| C29 | proved | Conversion between signed integer widths in `Z`. | `Blend`: narrow, unassigned, narrow_cast |
| C30 | proved | Structural induction over condition trees with a valuation of the operand identities. | `Constrain`: condition_value, double_negation, negation_inwards |
| C31 | proved | Structural induction over conjunctions (and negated disjunctions); debug and release builds. | `Constrain`: constrain_sound, negated_mixture_refuted |
| C32 | proved | Hull of the satisfying elements for each comparison. | `Constrain`: constrain_tight, not_equal |
| C33 | partial | Induction over trees with disjunctions. **Missing:** Refuted in general by three witnesses; proved if both sides of each disjunction mention the object and conjunctions inside a disjunction are not jointly contradictory. | `Constrain`: disjunction_partial, other_disjunct_refuted, order_of_conjuncts_refuted, contradictory_disjunct_refuted |
| C34 | proved | Structural induction; identity independent of values. | `Constrain`: constrain_within, other_object_rejected, narrowed_meanwhile_refuted |
| C35 | proved | Case analysis of comparisons. | `Constrain`: comparison_failfast, conjunction_refuted; `Debug`: scalar |
| C36 | partial | Mixed-type model: succ and pred before the conversion; monotone conversion of integers. **Missing:** Refuted for strict comparisons (element dropped, spurious fail-fast, overflow); proved for <=, >=, ==, != and, for < and >, for the elements at least one unit away from the bound. | `Constrain`: integer_bound_partial, weak_comparisons, refuted, failfast_refuted, overflow_refuted |
| C37 | proved | Hull of the branches that can be taken. | `Interval`: interval_if_else, interval_certain; `Set`: set_if_else |
| C38 | partial | Induction over the argument list. **Missing:** merge proved, also with an unassigned first argument; intersect proved for arguments with a common element; for two disjoint arguments it returns the numbers between them, the result for more arguments depends on their order, and an unassigned argument makes the result everything (refuted). | `Interval`: merge_hull, intersect_partial, intersect_refuted, intersect_disjoint, intersect_returns, intersect_order_refuted; `MixedMerge`: merge_unassigned, intersect_unassigned_refuted |
| C39 | proved | Direct; branches by hull of the assigned values. | `Interval`: assign_once, assign_partial, reset, branches |
| C40 | proved | Lists of any length; the halving loop by induction on the length; positions as iterators. | `Algo`: lower_bound, upper_bound, lower_bound_scalar, upper_bound_scalar, partition_point_bool, partition_point_set, vacuous_predicate |
| C41 | proved | From C31 and C32 with the neighbours of a position as bounds. Positions outside the range: by cases on the two bounds of the position interval. | `Algo`: lower_bound_constrain, upper_bound_constrain, lower_bound_exact, upper_bound_exact, lower_bound_tight, upper_bound_tight, temporary_rejected, index_out_of_range, scalar_index_out_of_range, scalar_lower, scalar_upper |
| C42 | proved | Iterators as state machines run by a range-for loop; induction on the number of remaining values. | `Algo`: enumerate_interval, enumerate_unassigned, enumerate_set, enumerate_empty_set, enumerate_scalar |
| C43 | proved | Induction over the index range. | `Algo`: at_numbers, at_sets, at_out_of_range, at_index |
| C44 | proved | Positions with `UB` outside of the range. | `Checks`: positions, step_positions; `Iter`: add, add_commuted, sub, difference, difference_defined, prev, next, deref, subscript |
| C45 | proved | Client programs of LangModel; soundness from C50, exactness of the hull for the constrained versions; folds by induction. | `Lang`: scalar, max_hull, max_wide, max_list, plain_assignment_refuted |
| C46 | proved | From C40, C41, C47: search, constrain, loop over the positions, hull of the pieces. | `Interp`: nearest_scalar, nearest_point, nearest, nearest_hull, linear, linear_scalar, linear_tight |
| C47 | proved | Mutual structural induction over expressions and tests. | `Lang`: expression, test, simple1_scalar, simple1 |
| C48 | proved | Hull of one pointwise result. | `Arith`: relations, arithmetic, unary |
| C49 | partial | From enclosure and tightness. **Missing:** Everything but division proved; division proved for divisors without zero or with both signs, refuted for a zero end point. | `Arith`: isotonic, isotonic_unary, isotonic_div_partial, isotonic_div_refuted, relations_grow |
| C50 | proved | Induction over program syntax; `constrain` by C31. | `Lang`: program, simple3, simple3_scalar |
| C51 | proved | Equality of bounds from the hull characterisations. | `Arith`: add_commutes, mul_commutes, neg_neg, sub_is_add_neg, min_max, merge |
| C52 | proved | Output as lists of tokens. | `Interval`: interval_output, unassigned_output; `Set`: set_output |
| C53 | partial | Case analysis of each operation: the debug run is the release run or `FailFast`. **Missing:** All operations with debug checks except the search functions, whose results do not depend on the build (C40, C41). Refuted for blend_linear with integer weights: the debug check adds the weights, which may overflow (undefined behaviour) where the release build only divides them. | `Debug`: sets, order, constrain, arithmetic, math, blend, iterators, partition, partition_scalar; `DebugMixed`: mixed_arithmetic, mixed_relations, mixed_constrain, mixed_pow, mixed_weights, mixed_fractions, mixed_linear_partial, mixed_linear_refuted |
| C54 | proved | Case analysis of each operation on the unassigned state. | `Debug`: bounds, extrema, relations, arithmetic, unary, math, sin, math2, blend, iterators, iterator_copy, sets, set_values, not; `DebugMixed`: mixed, mixed_constrain, mixed_blend, mixed_pow |
| C55 | proved | Usual arithmetic conversions as maps into the common type that preserve order, zeros and infinities; then as C13-C17. | `Mixed`: add, sub, mul, div, div_nan, div_encloses, div_trap, div_refuted |
| C56 | partial | As C55 with the relations of C08. **Missing:** <, <= (and, exchanged, >, >=) exact. == and !=: the answer 'unequal' is exact and 'equal' is never missed, but 'equal' can be reported although no pair of elements is equal: C56_equal_refuted (interval{0.25,0.75} == interval{0,1}). | `Mixed`: less, less_equal, equal_partial, not_equal_partial, equal_refuted |
| C57 | partial | Conversions with Flocq's rounding; monotone, so end points convert to end points. **Missing:** Proved for all conversions except to narrower integer types, which wrap around and lose elements (C57_convert_refuted). Narrowing to smaller floating-point formats proved as stated. | `Mixed`: convert_partial, convert_unassigned, convert_refuted, narrow, narrow_cast, narrow_unassigned, rounding, rounding_int, truncation |
| C58 | partial | Store of objects with lifetimes; every program refines one over plain variables, by induction on programs. **Missing:** Proved for every program, including self-assignment and throwing copy constructors. The rest is false: move assignment of a variable to itself (and std::swap of a variable with itself) is undefined behaviour (C58_self_move_refuted). | `Enum`: programs_partial, swap, self_move_refuted |
| C59 | proved | Client programs with iterator variables; refinement by lists of remaining values, by induction on programs. | `Enum`: interval, set, scalar |
| C60 | proved | As C40 and C41, once for all four comparisons and both searches; the binary search is that of C40. | `Search`: lower_bound, upper_bound, lower_bound_scalar, upper_bound_scalar, lower_bound_constrain, upper_bound_constrain, lower_bound_tight, upper_bound_tight, lower_bound_exact, upper_bound_exact, weak_comparison |
| C61 | partial | The step to the neighbour commutes with the conversion, so the code for operands of one type applies to the converted operand; then C31, C32, C35. **Missing:** Proved unless the bound of a strict comparison is the smallest (largest) number of the narrower integer type, where stepping to its neighbour overflows (C61_sound_refuted: x < INT_MIN for interval<long>). Exactness for == and != only for integers. | `Widen`: sound_partial, sound_refuted, tight, not_equal, failfast |
| C62 | partial | Conversion there and back with Flocq's rounding and truncation; integer parts of floating-point numbers are floating-point numbers. **Missing:** Refuted for values out of the range of the integer type: the conversion (to it, or back to it) is undefined behaviour instead of an error (C62_error_refuted); C62_undefined says when. Everything else proved. | `FloatInt`: to_int, to_int_error_partial, to_float, to_float_error_partial, lossless, error_refuted, undefined, cast_to_int, cast_to_float, unassigned |
| C63 | partial | The search in the range equals the search in the converted range; for narrower elements so does the constraint (C61); then C40, C41. **Missing:** Positions proved for all conversions. The constraint is proved for narrower elements of the same kind that have a neighbour in their type; it is refuted for integer elements and a floating-point interval, where elements are lost or the program is terminated. | `Table`: lower_bound, upper_bound, lower_constrain_partial, upper_constrain_partial, constrain_refuted, failfast_refuted, lower_tight, upper_tight, lower_exact, upper_exact |
| C64 | proved | An element outside of the domain exists exactly if an end point is outside; rounded sums are monotone. | `Checks`: domains, scalar_domains, fractional_weights, blend_linear, blend_fractions, scalar_weights, scalar_fraction, release |
| C65 | proved | The range of the exact operation over a box is attained at machine numbers; rounding is monotone, so the hull of the machine results has the rounded end points. The claim that results are rounded outward is refuted. | `Round`: arithmetic, functions, half_ulp, outward_refuted |
| C66 | proved | Reduced argument within a bound of the argument minus a multiple of 2 PI, by Flocq's error bounds; six cases of the code compared with the monotone pieces of the cosine; PI bounded by rational Taylor polynomials. | `Machine`: cos, sin, sin_refuted |
| C67 | proved | The code is the formula at one or two corners of the box for each sign of log and exponent; the end points are values of the formula, and monotonicity gives the hull. Flocq's bounds for the product, then exp(E) for the error of the exponent. Refutation: no machine number near 1000 ln 2 is close enough to it. | `Machine`: formula, formula_integer, near, refuted |
| C68 | proved | The exact functions are monotone (atan2: monotone in each argument on boxes off the branch cut), so their extreme values lie in the corners; the code takes the least and greatest computed corner value. | `Machine`: cbrt, log, exp, asin, acos, atan, atan2, atan2_cut |
| C69 | proved | Reduced end points within d of the end points plus a multiple of PI, as for C66; \|tan x - tan y\| <= \|x - y\| / \|cos x cos y\|; tan is monotone between poles. Near a pole the arc tangent gives numbers of X with any large tangent. | `Machine`: tan, wide, pole_refuted |
| C70 | proved | The corner chosen by the code is the exact extreme corner, as comparisons are exact; the rounding errors of the operations at a corner are added up with Flocq's bounds. The rounded 1/(1 + b/a) is within 5 2^-prec of a/(a + b), with separate cases for quotients and sums that overflow. blend_quadratic: the Euclidean norm is Lipschitz, square roots of values with relative and absolute errors. | `Machine`: fractions, linear, weights, weights_return, weights_outcome, scalar_weights, scalar_fractions, scalar_linear, scalar_quadratic |
| C71 | partial | The corner analysis of C70 with separate machine numbers for q and 1 - q, of any type; integers: q and 1 - q are 0 and 1 and every operation is exact; 1/(1 + n/a) of integers by the properties of Z.quot; fractional_weights: equality with the converted operands by the laws of the conversions. **Missing:** fractional_weights as stated; blend_fractions with integer fractions exact. Refuted: blend_linear with integer weights divides integers (2 and 1 give x instead of the mean; a zero first weight is undefined behaviour), and fractions and weights of a narrower floating-point type cause deviations of the order of the narrower type. What is computed instead is proved. | `MixedBlend`: weights, fractions_int, linear_int_partial, linear_int_refuted, linear_int_zero, linear_int_overflow, fractions_float_partial, linear_float_partial, fractions_float_refuted |
| C72 | proved | The product with the integer equals that with the converted exponent, as the conversion keeps zero and gives no infinity. The code for an integer exponent is then pow of the converted exponent over a library whose conversion to long long returns the integer itself, to which the results of C67, which hold for any such conversion, apply; exact real arithmetic: C25; no undefined behaviour: by traversing the code, as no operation of a floating-point type has any. | `MixedPow`: nonneg, formula, nan, defined, encloses, representable, conversion_refuted |
| C73 | partial | Each argument is converted by the converting constructor; its converted elements have the result as their hull because the conversions are monotone; then as C38, by induction over the argument list. **Missing:** merge proved; intersect proved for arguments with a common value; for disjoint arguments it returns a gap as in C38, and an unassigned argument makes the result everything (refuted). | `MixedMerge`: merge, merge_unassigned, intersect_partial, intersect_returns, intersect_unassigned_refuted |
| C74 | partial | sgn: by the three cases of the order; products: the laws of multiplication by 1, 0, -1 of each value type (for floating point from the correctness theorem of Flocq), then C07 and C14; merge, intersect: C38. **Missing:** proved except for three cases in which the code really differs, each with a refutation: sgn of a NaN, an infinity times the sign "zero", and intersect of numbers that do not lie in all the intervals. | `Scalar`: sgn, sgn_nan_refuted, sign_product_partial, sign_product_enclosed_partial, sign_product_refuted, sign_times_interval, assign, merge, intersect_partial, intersect_refuted |
| C75 | partial | Search and constraint by C40 and C41, the body by the induction over programs of C50, and induction over the list of positions: the result only grows. Each body assigns a list of intervals that does not depend on the result so far, so the result is the hull of all of them. A table without repetitions: the entry at a position, or the one before, has that position. **Missing:** with a repeated entry in the table the function need not return (refuted: the position between two equal entries is visited, although no value has it, and the constraint fails); the other theorems hold of all tables, or of those without repeated entries. | `Piece`: scalar, included, result, pieces, returns, repeated_refuted |
| C76 | partial | Two runs in lockstep, by induction over expressions and programs. Conditions are compared by their structure: same shape, nested operands, nested truth values; `constrain` is isotonic along this relation by induction over conjunctions. The result so far is compared by its bounds, so that the empty result before the first assignment is covered. Subdivision: with C50. **Missing:** inclusion is proved for programs whose constraints are conjunctions, and refuted for a disjunction; that the narrower run returns is proved if every constraint is one comparison, and refuted for a conjunction of two. | `Iso`: expression, test, program, returns_partial, subdivision, returns_refuted, disjunction_refuted |
| C77 | proved | `_multiply_0` is monotone in each argument, in a direction given by the sign of the other, also where infinity meets zero: from the laws of multiplication and the signs of products. So its corners give the hull of all products. Then hulls are carried through max, log, exp, the sign and assign, where only the end points have to be attained. The integers: Flocq, conversion from and to integers. | `Pow`: nonneg, integer, other, integers, zero_exponent, base_one |
| C78 | proved | Each operation is uniformly continuous on its (compact) domain: by Heine's theorem of the standard library, by explicit moduli for sqrt, cbrt, asin, acos. Since each operation is the hull of its values (C07, C08, C14), the width of its result is bounded through the modulus. Induction over the expression, with C76 for the results on sub-boxes; the distance to a value of the expression from C47. Boxes: induction over the inputs. | `Limit`: width, range, boxes, jump_refuted |
| C79 | proved | Every operator takes its bounds from the end points of its operands, so by induction the bounds are values of the expression: operands with disjoint variables can be chosen independently, and operands that are equal as numbers (zeros of both signs) give equal results, by C49 on point intervals. Exact arithmetic: intermediate value theorem of the standard library, along one operand after the other. | `Use`: hull, range, repeated_refuted |
| C80 | proved | Induction on the expression. Per operation: C65/C68 bound the error of the operation for arguments between the computed end points; drift lemmas (mean value theorem for atan, exp and log) bound how much the exact value moves if the arguments move by their error. C80_tight: C79 turns end points into values of the scalar program at points of the box, whose error bound is at most that of the box. | `Accu`: accuracy, scalar, tight, attained |
| C81 | proved | Same model as C31-C35. Induction on the conjunction: for every value of the flags `considered` and `optional`, the result consists of the elements that satisfy the comparisons so far, or there is none and the intersection fails; single comparisons are C32. Disjunctions: hull of the two results, with the sides that cannot be true left out. | `Conj`: conjunction, disjunction, disjunction_failfast |
| C82 | proved | Mutual induction on expressions and conditions. End points of results are values (as in C79); whether a comparison other than an equality can hold is decided by end points; distinct variables let points for the parts be combined into one point of the box. The set of truth values of a condition is characterised by C30. | `Choice`: condition, if_else, equality_refuted |
| C83 | proved | A condition is re-read with x standing for the narrowed interval (`rebind`). By C81 each step keeps exactly the elements that meet the comparisons, and which comparisons an element meets does not depend on the interval it is taken from. For discrete types an element that is left is a witness that the condition is still possible. | `Succ`: successive, order, repeated, narrower, discrete, repeated_discrete, continuous_refuted |
| C84 | proved | `rvalue` and `rtruth` give the meaning of expressions and conditions in real arithmetic, `branch_bound` extends the running error analysis of C80 to if_else, and `clear_cut` states the margin of each comparison. By mutual induction on expressions and conditions: near operands have elements for which the comparison has its real truth value, so by exactness of conditions (C82) that value is reported, and if_else covers the branch chosen in real arithmetic. | `Decide`: accuracy, decision, certain, scalar, margin_refuted |
