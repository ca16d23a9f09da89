{"id": "C01", "title": "Four-valued logic connectives are the exact set extension", "statement": "For set<bool> operands x and y (or one set<bool> and one bool), each of x & y, x | y, x ^ y and !x contains a truth value t exactly if there are members a of x and b of y with a op b == t; in particular the empty set is contagious. Hence commutativity, associativity, distributivity, De Morgan and involution of ! hold as set equalities.", "quantifier": "All sixteen pairs of set<bool> values, both bool/set argument orders, debug and release mode, and all formulas built from these connectives.", "why_tests_cant": "The unit tests compare the table entries with a helper that itself calls the operator on sets, so a wrong entry cannot be told from a right one; algebraic laws over all formulas are not enumerable.", "anchors": ["include/intervals/set.hpp: operator!, operator&, operator|, operator^", "include/intervals/detail/set.hpp: lut_4vK_and, lut_4vK_or, lut_4vK_xor, lut_4vK_not"]}
{"id": "C02", "title": "Ordering comparisons of set<bool> are the exact set extension", "statement": "For set<bool> operands (or one bool operand), each of x >= y, x > y, x <= y, x < y contains a truth value t exactly if there are members a of x, b of y with (a op b) == t (false < true); and x >= y equals !(x < y).", "quantifier": "All pairs of set<bool> values and both mixed bool/set argument orders.", "why_tests_cant": "The test helper evaluates the operator on the sets instead of on the members, so it agrees with whatever the table says.", "anchors": ["include/intervals/set.hpp: operator>=, operator>, operator<=, operator< on set<bool>", "include/intervals/detail/set.hpp: lut_4vK_geq, lut_4vK_gt"]}
{"id": "C03", "title": "Boolean projections answer the quantified questions they are named after", "statement": "possibly(c) iff true is a member of c, possibly_not(c) iff false is, always(c) iff false is not, never(c) iff true is not, contingent(c) iff both are, vacuous(c) iff none is; on an assigned condition exactly one of 'always', 'never', 'contingent' holds, negation swaps possibly/possibly_not and always/never, and the projections of a bool agree with those of the singleton set.", "quantifier": "All set<bool> and bool values, and all conditions built with the connectives.", "why_tests_cant": "Tests check sample values; the partition and duality laws quantify over all conditions.", "anchors": ["include/intervals/set.hpp: possibly, possibly_not, always, never, contingent, vacuous", "include/intervals/logic.hpp: the bool overloads"]}
{"id": "C04", "title": "set<T> holds exactly the values assigned since the last reset", "statement": "After any sequence of construction, assign(value), assign(set), reset(), reset(set), contains(v) is true exactly if v was given by an operation after the last reset; the order and multiplicity of assignments do not matter; to_bits/from_bits round-trip; a value that is not enumerated by the reflection metadata always ends in a fail-fast instead of being silently lost; from_bits turns any bit pattern into the set of the listed values whose bit is set, dropping all other bits; to_bits gives the bits of the members, and throws exactly if a member is listed behind the 64th value.", "quantifier": "All finite enumerated value types (any number of values), all operation sequences.", "why_tests_cant": "Arbitrary histories and arbitrary enumeration sizes cannot be enumerated.", "anchors": ["include/intervals/set.hpp: set::set, set::assign, set::reset, set::from_bits, set::to_bits, set::contains, set::find_value_index"]}
{"id": "C05", "title": "Equality and inequality of sets are exact over the members", "statement": "For assigned sets x and y, (x == y) contains true exactly if they have a common member, contains false exactly if some member of x differs from some member of y, and x != y is the element-wise negation of x == y.", "quantifier": "All enumerated types with any number of values, all pairs of non-empty sets.", "why_tests_cant": "The implementation decides by population counts; tests sample only two- and three-valued types.", "anchors": ["include/intervals/set.hpp: set::operator==, set::operator!=, set::compare_eq"]}
{"id": "C06", "title": "value(), contains(set) and matches(set) have their set meaning", "statement": "value() returns v exactly if v is the only member and otherwise fails fast; a.contains(b) holds exactly if every member of b is a member of a; a.matches(b) exactly if they have the same members; contains_index(i) tells whether the i-th value is a member and fails fast if there is no i-th value.", "quantifier": "All enumerated types, all sets including the empty one.", "why_tests_cant": "value() is a shifting loop over all bit positions; correctness for any number of values needs induction.", "anchors": ["include/intervals/set.hpp: set::value, set::contains, set::matches, set::contains_index"]}
{"id": "C07", "title": "Sign sets: sgn, negation and products are exact extensions", "statement": "sgn(X) contains sign s exactly if some element of X has sign s; -S and S*T on set<sign> contain exactly the negated/multiplied signs of members (S, T non-empty); S*X and X*S (S a set of signs, X an arithmetic interval or scalar) contain s*x for all s in S, x in X, and their end points are attained.", "quantifier": "All sign sets, all intervals over integer or floating-point types, all scalars.", "why_tests_cant": "Interval end points range over all machine numbers.", "anchors": ["include/intervals/interval.hpp: sgn, operator*(set<sign>,X), operator*(T,set<sign>)", "include/intervals/set.hpp: operator-(set<sign>), operator*(set<sign>,set<sign>)", "include/intervals/sign.hpp: sgn, operator*"]}
{"id": "C08", "title": "Relational operators on intervals are the exact set extension", "statement": "For assigned, non-NaN X and Y (interval or scalar operands), each of ==, !=, <, <=, >, >= yields a condition whose value contains a truth value t exactly if there are elements x of X and y of Y with (x op y) == t.", "quantifier": "All ordered value types (integers, floating-point incl. infinities and signed zero, iterators), all pairs of intervals.", "why_tests_cant": "Both directions quantify over all pairs of elements of unbounded intervals.", "anchors": ["include/intervals/interval.hpp: compare_eq, compare_neq, compare_lt, compare_leq, operator==..operator>="]}
{"id": "C09", "title": "Relational results obey the order axioms that branching code relies on", "statement": "For assigned non-NaN X and Y: the value of X != Y is !(X == Y), of X >= Y is !(X < Y), of X > Y is !(X <= Y), and (X < Y), (X == Y), (X > Y) are jointly exhaustive: at least one of the three is possible, and X == Y is certain only if X < Y and X > Y are both impossible. Relations with a NaN interval never certify an ordering: <, <=, >, >= give a vacuous condition.", "quantifier": "All pairs of intervals over all value types.", "why_tests_cant": "Laws relating two different operators over all operands.", "anchors": ["include/intervals/interval.hpp: operator==, operator!=, operator<, operator<=, operator>, operator>="]}
{"id": "C10", "title": "An interval is the hull of everything assigned since the last reset", "statement": "After any sequence of reset(), reset(v), reset(X), assign(v), assign(X) (assigned, non-NaN arguments) starting from a default-constructed interval, the interval is unassigned if nothing was assigned, and otherwise it is the smallest interval containing every value and interval assigned since the last reset; the result does not depend on the order of assignments; assigning an unassigned interval fails fast in every build mode.", "quantifier": "All operation sequences of any length over integer, floating-point and iterator values.", "why_tests_cant": "Unbounded histories.", "anchors": ["include/intervals/interval.hpp: interval::assign, interval::reset, interval_base::_assign, interval_base::_reset"]}
{"id": "C11", "title": "Membership and containment queries have their set meaning", "statement": "contains(v) iff lower <= v <= upper; X.contains(Y) iff Y is a subset of X (for assigned X); X.encloses(Y) iff Y lies strictly inside; X.overlaps_with(Y) iff they share an element (assigned X and Y); X.matches(Y) iff they have the same elements (assigned); value() succeeds iff the interval has exactly one (numeric) value.", "quantifier": "All intervals over all ordered value types.", "why_tests_cant": "Subset/overlap are statements about all elements.", "anchors": ["include/intervals/interval.hpp: interval_base::contains, encloses, overlaps_with, matches, value"]}
{"id": "C12", "title": "No operation produces an inverted interval", "statement": "Every interval value obtainable through the public API is either assigned (not lower > upper) or the canonical unassigned state; the two-argument constructor fails fast on inverted bounds in every build mode and from_unordered_bounds never fails; a copy of an assigned interval equals it, and a copy of an unassigned one is the canonical unassigned state.", "quantifier": "All finite compositions of API operations (construction, reset, assign, arithmetic, functions, constrain, merge, intersect).", "why_tests_cant": "Closure over all compositions is an invariant, not a finite check.", "anchors": ["include/intervals/interval.hpp: interval constructors, from_unordered_bounds, assigned"]}
{"id": "C13", "title": "Addition, subtraction and negation enclose all pointwise results, tightly", "statement": "For assigned non-NaN X, Y whose sum/difference has no NaN pair: for all x in X, y in Y the machine result x+y (x-y, -x) lies in X+Y (X-Y, -X), and both end points are attained by some pair.", "quantifier": "All floating-point formats (radix 2, any precision/exponent range, round-to-nearest), all intervals incl. infinite end points, interval/interval, interval/scalar, scalar/interval operands.", "why_tests_cant": "Element pairs of floating-point intervals cannot be enumerated; the argument is monotonicity of rounding.", "anchors": ["include/intervals/interval.hpp: operator+(X,Y), operator-(X,Y), operator-(X)"]}
{"id": "C14", "title": "Multiplication encloses all pointwise results, tightly", "statement": "For assigned non-NaN X, Y with no NaN pair: x*y lies in X*Y for all x in X, y in Y, and both end points are attained; scalar*interval and interval*scalar agree with interval*interval on a degenerate interval.", "quantifier": "All floating-point formats, all sign patterns, infinities, zeros, underflow and overflow.", "why_tests_cant": "The four-corner argument with rounding, infinities and signed zeros quantifies over all elements.", "anchors": ["include/intervals/interval.hpp: operator*(X,Y)"]}
{"id": "C15", "title": "Arithmetic reports NaN exactly when NaN is possible", "statement": "For assigned non-NaN floating-point X and Y, each of X+Y, X-Y, X*Y, X/Y is the NaN interval exactly if there are elements x of X, y of Y for which the machine operation yields NaN; otherwise both end points are numbers.", "quantifier": "All floating-point formats, all assigned non-NaN intervals (interval and scalar operands).", "why_tests_cant": "Both directions quantify over all element pairs; special cases of infinities and zeros multiply.", "anchors": ["include/intervals/interval.hpp: operator+, operator-, operator*, operator/", "include/intervals/detail/interval.hpp: nan_interval, is_negative_inf, is_positive_inf"]}
{"id": "C16", "title": "Floating-point division encloses all pointwise quotients", "statement": "For assigned non-NaN X and Y without a NaN pair, x/y lies in X/Y for every x in X and every non-zero y in Y.", "quantifier": "All floating-point formats, all intervals, including divisors with a zero end point of either sign.", "why_tests_cant": "The failing inputs are divisors with a zero end point whose sign bit points away from the interval; tests only use the benign sign.", "anchors": ["include/intervals/interval.hpp: operator/(X,Y)"]}
{"id": "C17", "title": "Integer interval arithmetic is exact, and never silently overflows", "statement": "For signed integers, X+Y, X-Y, X*Y, -X, square, cube and abs return normally exactly if every pointwise result is representable, and the returned interval is then the exact hull of the pointwise results; X/Y traps exactly if 0 is in Y, and otherwise returns the exact hull of all truncated quotients unless a quotient overflows. No case returns a wrong interval.", "quantifier": "All widths of signed integer type at least as wide as int, all assigned intervals.", "why_tests_cant": "All pairs of 32/64-bit integers; truncating division is monotone only piecewise.", "anchors": ["include/intervals/interval.hpp: operator+, operator-, operator*, operator/, square, cube, abs"]}
{"id": "C18", "title": "square, cube and abs enclose all pointwise results, tightly, and beat self-multiplication", "statement": "For assigned non-NaN X, x*x, x*x*x and |x| lie in square(X), cube(X), abs(X) for all x in X; end points are attained; square(X) is a subset of X*X and is never negative.", "quantifier": "All floating-point and integer types, all intervals.", "why_tests_cant": "Quantifies over all elements; the interaction of rounding with repeated multiplication is not testable exhaustively.", "anchors": ["include/intervals/interval.hpp: square, cube, abs", "include/intervals/math.hpp: square, cube, abs"]}
{"id": "C19", "title": "min, max, infimum, supremum and the bounds are exact", "statement": "min(X,Y) and max(X,Y) are exactly the hulls of the pointwise minima/maxima for assigned non-NaN X and Y, infimum/supremum are the least/greatest element, and so are lower()/upper() (also reached through structured bindings): they are elements, a value is an element exactly if it lies between them, and the interval constructed from them is the same interval.", "quantifier": "All ordered value types, all intervals.", "why_tests_cant": "Quantifies over all elements.", "anchors": ["include/intervals/interval.hpp: min, max, infimum, supremum", "include/intervals/math.hpp: min, max", "include/intervals/interval.hpp: lower, upper, get<I>"]}
{"id": "C20", "title": "Rounding functions, frac and sqrt enclose all pointwise results", "statement": "For assigned non-NaN X: floor(x), ceil(x), round(x), frac(x) and (for X with non-negative lower end) sqrt(x) lie in floor(X), ceil(X), round(X), frac(X), sqrt(X) for all x in X.", "quantifier": "All floating-point formats, all intervals.", "why_tests_cant": "Quantifies over all floating-point elements.", "anchors": ["include/intervals/interval.hpp: floor, ceil, round, frac, sqrt", "include/intervals/math.hpp: floor, ceil, round, frac, sqrt"]}
{"id": "C21", "title": "Monotone library functions are lifted soundly and fail only where the scalar function does", "statement": "cbrt, log, exp, asin, acos, atan on an assigned interval in the domain enclose the pointwise results, attained at the end points; in debug mode a domain violation of any element that is an end point fails fast, and a domain violation inside is impossible without one at an end point.", "quantifier": "All intervals; all monotone implementations of the scalar function, and the exact real functions.", "why_tests_cant": "Quantifies over all elements and over library implementations.", "anchors": ["include/intervals/interval.hpp: cbrt, log, exp, asin, acos, atan", "include/intervals/math.hpp: log, asin, acos"]}
{"id": "C22", "title": "cos and sin of an interval enclose all pointwise values", "statement": "In exact real arithmetic, for every bounded interval X and every x in X, cos x lies in cos(X) and sin x in sin(X); each end point of cos(X) is attained or the interval spans a full period.", "quantifier": "All bounded real intervals (any offset, any width).", "why_tests_cant": "Quadrant case analysis after range reduction for all real offsets.", "anchors": ["include/intervals/interval.hpp: cos, sin", "include/intervals/math.hpp: wraparound"]}
{"id": "C23", "title": "tan of an interval encloses all pointwise values", "statement": "In exact real arithmetic, for every bounded X and every x in X at which tan is defined, tan x lies in tan(X).", "quantifier": "All bounded real intervals.", "why_tests_cant": "The failing inputs are intervals narrower than pi that contain a pole; tests only use intervals inside one branch or wider than pi.", "anchors": ["include/intervals/interval.hpp: tan"]}
{"id": "C24", "title": "atan2 of intervals encloses all pointwise angles or reports NaN", "statement": "In exact real arithmetic, atan2(Y,X) is the NaN interval exactly if the box touches the branch cut {y = 0, x <= 0}, and otherwise contains atan2(y,x) for all y in Y, x in X, with attained end points; scalar operands agree with degenerate intervals.", "quantifier": "All boxes of bounded real intervals.", "why_tests_cant": "Two-dimensional quantification.", "anchors": ["include/intervals/interval.hpp: atan2", "include/intervals/math.hpp: atan2"]}
{"id": "C25", "title": "pow of intervals encloses all pointwise powers or reports NaN", "statement": "In exact real arithmetic, for X with non-negative elements and any bounded Y, x^y lies in pow(X,Y) for all x in X, y in Y with x^y defined; for X with negative elements the result is NaN unless Y is a single integer, in which case x^y lies in pow(X,Y).", "quantifier": "All bounded real intervals.", "why_tests_cant": "Two-dimensional quantification with sign cases.", "anchors": ["include/intervals/interval.hpp: pow, _multiply_0"]}
{"id": "C26", "title": "wraparound maps into the half-open target range, congruently", "statement": "wraparound(x,min,max) lies in [min,max) and differs from x by a multiple of max-min.", "quantifier": "All finite x and all min < max, in exact arithmetic and in every floating-point format.", "why_tests_cant": "The documented half-open range fails only for rare roundings; requires an argument about fmod and rounding.", "anchors": ["include/intervals/math.hpp: wraparound"]}
{"id": "C27", "title": "Blending helpers enclose the scalar blends", "statement": "In exact arithmetic fractional_weights(A,B), blend_fractions(F,X,Y), blend_linear(A,B,X,Y) enclose the scalar results for all elements, weights lie in [0,1]; in machine arithmetic a call with valid arguments does not fail fast.", "quantifier": "All admissible intervals (non-negative weights with positive sum).", "why_tests_cant": "Up to eight end points and all their elements.", "anchors": ["include/intervals/interval.hpp: fractional_weights, blend_fractions, blend_linear", "include/intervals/math.hpp: fractional_weights, blend_fractions, blend_linear"]}
{"id": "C28", "title": "Classification predicates are exact extensions", "statement": "isinf(X), isfinite(X), isnan(X) contain the classification of every element of X, and for non-NaN X contain nothing else.", "quantifier": "All floating-point formats, all assigned intervals including NaN intervals.", "why_tests_cant": "Quantifies over all elements.", "anchors": ["include/intervals/interval.hpp: isinf, isfinite, isnan"]}
{"id": "C29", "title": "Narrowing conversions preserve or reject", "statement": "narrow<T>(X) and narrow_failfast<T>(X) return the interval with the same elements exactly if both end points are representable in T, and otherwise throw/fail fast; an unassigned interval converts to an unassigned interval; narrow_cast<T>(X) returns the same elements if the end points are representable.", "quantifier": "All pairs of signed integer widths, all intervals.", "why_tests_cant": "All end points of wide types.", "anchors": ["include/intervals/interval.hpp: narrow, narrow_failfast, narrow_cast"]}
{"id": "C30", "title": "Conditions carry the truth value of their formula", "statement": "For any condition built from interval comparisons with &, | and !, evaluating the formula on any choice of elements (one per named interval) gives a truth value contained in the condition's set; !c has the negated truth value, and !!c is the same condition as c.", "quantifier": "All condition trees of any depth, all intervals, all choices of elements.", "why_tests_cant": "Structural induction over condition trees.", "anchors": ["include/intervals/detail/interval.hpp: operator&, operator|, operator!, condition", "include/intervals/interval.hpp: operator<, operator<=, operator==, operator!="]}
{"id": "C31", "title": "constrain never discards a value that satisfies the condition", "statement": "If x is an element of X, and x together with some elements of the other operands satisfies condition c (a comparison mentioning X, or a conjunction of comparisons at least one of which mentions X, operands of the same value type), then constrain(X, c) returns normally in debug and release mode and x is an element of the result.", "quantifier": "All comparison kinds, operand positions, value types, and conjunction trees of any depth.", "why_tests_cant": "Quantifies over all elements and all condition trees.", "anchors": ["include/intervals/interval.hpp: constrain", "include/intervals/detail/interval.hpp: constrain for less_equal/less/equal/not_equal/conjunction"]}
{"id": "C32", "title": "constrain is tight", "statement": "For a single comparison mentioning X: constrain(X, X <= Y), (X >= Y), (X == Y) return exactly the hull of the elements of X that satisfy the comparison for some y in Y; for integers and iterators the same holds for <, > and, when Y is a single value, for !=.", "quantifier": "All intervals over all value types.", "why_tests_cant": "Quantifies over all elements.", "anchors": ["include/intervals/detail/interval.hpp: constrain for less_equal/less/equal/not_equal"]}
{"id": "C33", "title": "constrain is sound for disjunctions", "statement": "If x in X together with some elements of the other operands satisfies a condition that contains disjunctions (including negated conjunctions), constrain(X, c) returns normally and keeps x.", "quantifier": "All condition trees with disjunctions.", "why_tests_cant": "Whether a disjunct mentions X is a property of the tree shape; the failing shapes (a disjunct about another variable only) are absent from the tests.", "anchors": ["include/intervals/detail/interval.hpp: constrain for constraint_disjunction, constraint_conjunction"]}
{"id": "C34", "title": "constrain never widens and keeps identity", "statement": "constrain(X, c) is a subset of X when c was formed from X; an interval object that does not occur in the condition is rejected by a fail-fast, no matter which values it holds.", "quantifier": "All condition trees, all intervals, all object identities.", "why_tests_cant": "Identity and aliasing over all trees.", "anchors": ["include/intervals/interval.hpp: constrain", "include/intervals/detail/interval.hpp: constrained_interval, matches_identity, constrain"]}
{"id": "C35", "title": "constrain fails fast exactly when the condition is impossible", "statement": "For a comparison c mentioning X, constrain(X, c) fails fast exactly if the condition cannot be true for any elements; it never returns an interval for an impossible comparison.", "quantifier": "All comparisons, all intervals, debug and release builds.", "why_tests_cant": "Quantifies over all elements.", "anchors": ["include/intervals/detail/interval.hpp: constrain"]}
{"id": "C36", "title": "Constraining a floating-point interval by an integer bound is sound", "statement": "constrain(X, X < n) with X a floating-point interval and n an integer keeps every element of X below n.", "quantifier": "All floating-point intervals and all integers n.", "why_tests_cant": "Only mixed-type strict comparisons misbehave; tests compare same-type operands.", "anchors": ["include/intervals/detail/interval.hpp: constrain for less_constraint, pred, succ"]}
{"id": "C37", "title": "if_else unites exactly the branches that can be taken", "statement": "if_else(c, A, B) contains every element of A if c may be true and every element of B if c may be false, and is the smallest set/interval doing so; with a certain condition it equals the chosen branch.", "quantifier": "All conditions, all intervals and sets.", "why_tests_cant": "Quantifies over all elements.", "anchors": ["include/intervals/interval.hpp: if_else", "include/intervals/set.hpp: if_else"]}
{"id": "C38", "title": "merge is the hull, intersect is the common part", "statement": "merge(X1..Xn) is the smallest interval containing all arguments; intersect(X1..Xn) contains exactly the common elements of all arguments.", "quantifier": "Any number of arguments, all intervals.", "why_tests_cant": "Arbitrary argument counts; behaviour for disjoint arguments is not covered by tests.", "anchors": ["include/intervals/interval.hpp: merge, intersect", "include/intervals/detail/interval.hpp: narrow_interval"]}
{"id": "C39", "title": "assign, assign_partial and reset implement single and partial assignment", "statement": "assign(lhs, rhs) on intervals succeeds only if lhs is unassigned and then lhs equals rhs; assign_partial unites; reset overwrites; executing only the branches that are possible with assign_partial gives a result containing every branch value that can occur.", "quantifier": "All intervals, all sequences of partial assignments.", "why_tests_cant": "Unbounded sequences.", "anchors": ["include/intervals/interval.hpp: assign, assign_partial, reset", "include/intervals/set.hpp: assign, assign_partial, reset", "include/intervals/math.hpp: assign, assign_partial, reset"]}
{"id": "C40", "title": "Interval search encloses the scalar search", "statement": "For a sorted range and an interval V, lower_bound(range, V) and upper_bound(range, V) return an interval of positions containing the scalar lower/upper bound of every v in V, with both end points attained; with a scalar they agree with the standard algorithms; partition_point with a set-valued predicate encloses every partition point of the selected predicates.", "quantifier": "All range lengths, all sorted ranges, all intervals.", "why_tests_cant": "Binary search over ranges of unbounded length.", "anchors": ["include/intervals/algorithm.hpp: partition_point, lower_bound, upper_bound"]}
{"id": "C41", "title": "Constraining by a partition keeps all consistent values", "statement": "If v in V has scalar lower_bound position in [i,j], then constrain(V, preds[{i,j}]) (preds from lower_bound(range,V)) returns normally and contains v. An index outside [0, size] fails fast in debug builds; a release build reads outside the range only if the whole index interval is outside, and otherwise treats it as cut off at the ends.", "quantifier": "All sorted ranges, all intervals, all position intervals.", "why_tests_cant": "All range lengths and contents.", "anchors": ["include/intervals/algorithm.hpp: constrain with partitioning constraint", "include/intervals/detail/algorithm.hpp: partitioning"]}
{"id": "C42", "title": "enumerate visits each element exactly once, in order", "statement": "Iterating enumerate(X) over an integer or iterator interval yields lower, lower+1, ..., upper, each once, terminates, and never computes a value outside [lower, upper] (no overflow at the largest integer); over a set it yields the members in metadata order, each once; over a scalar it yields the scalar.", "quantifier": "All assigned intervals and sets of any size.", "why_tests_cant": "Unbounded iteration counts; overflow at the type's maximum.", "anchors": ["include/intervals/algorithm.hpp: enumerate", "include/intervals/detail/algorithm.hpp: interval_value_iterator, set_value_iterator, single_value_iterator"]}
{"id": "C43", "title": "at() with an interval index is the hull of the selected elements", "statement": "at(range, I) fails fast exactly if I is unassigned or not within [0, size), and otherwise returns the smallest interval (or the union set) containing range[i] for all i in I.", "quantifier": "All ranges and index intervals.", "why_tests_cant": "All lengths and contents.", "anchors": ["include/intervals/algorithm.hpp: at"]}
{"id": "C44", "title": "Iterator intervals: arithmetic and dereference enclose the pointwise results", "statement": "it + n, it - n, it - it, prev, next on iterator intervals enclose and are attained by the pointwise results; *I is the hull of the elements at the positions in I; positions outside the range are undefined behaviour exactly if some pointwise operation is.", "quantifier": "All ranges, all position and offset intervals.", "why_tests_cant": "All lengths and contents.", "anchors": ["include/intervals/interval.hpp: operator+/- on iterators, iterator_interval_base::operator*, operator[], prev, next"]}
{"id": "C45", "title": "The documented max examples enclose the scalar max", "statement": "The example programs max2, max3, imax0, imax written once and instantiated with intervals return an interval containing the scalar result for all element choices; with constrain (max3, imax) the result is exactly the hull, also when a list is folded. The first version, max with plain assignments, is not an enclosure (README.md 420-428).", "quantifier": "All intervals, all lists of intervals.", "why_tests_cant": "Quantifies over all elements and list lengths.", "anchors": ["README.md: max examples", "examples/simple1.cpp", "examples/simple2.cpp", "examples/simple3.cpp"]}
{"id": "C46", "title": "The documented interpolation examples enclose the scalar interpolation", "statement": "interpolate_nn and interpolate_linear instantiated with an interval argument return normally, and return an interval containing the scalar result for every element, for any sorted table (for linear interpolation: whose adjacent points and values have finite differences, with distinct points for integer types). Nearest-neighbour interpolation returns the hull of the scalar results if the midpoints are distinct.", "quantifier": "All table lengths and contents, all intervals.", "why_tests_cant": "Loops over tables of unbounded length.", "anchors": ["examples/interpolate-nn.cpp", "examples/interpolate-linear.cpp", "README.md"]}
{"id": "C47", "title": "Inclusion is preserved by composition (fundamental theorem)", "statement": "For any expression built from +, -, *, / (divisors without zero), unary -, square, abs, min, max, sqrt and other functions within their domains, if_else and comparisons, evaluating it on intervals without encountering NaN gives an interval containing the machine result of evaluating it on any elements; likewise a test gives a set containing the truth value.", "quantifier": "All expressions of any size, all floating-point formats, all inputs.", "why_tests_cant": "Structural induction over expressions.", "anchors": ["include/intervals/interval.hpp: arithmetic and function overloads"]}
{"id": "C48", "title": "Degenerate intervals behave like scalars", "statement": "For each operation, applying it to degenerate intervals {x},{y} (no NaN) gives the degenerate interval of the scalar result, and comparison of degenerate intervals gives the singleton truth value of the scalar comparison.", "quantifier": "All scalar values of all value types.", "why_tests_cant": "All machine numbers.", "anchors": ["include/intervals/interval.hpp: all operators"]}
{"id": "C49", "title": "Interval operations are inclusion isotonic", "statement": "If X is a subset of X' and Y of Y', and neither result is NaN, then X op Y is a subset of X' op Y' for each arithmetic operator and for min, max, square, abs; and truth values can only be added when operands grow.", "quantifier": "All intervals.", "why_tests_cant": "Quantifies over pairs of nested intervals.", "anchors": ["include/intervals/interval.hpp: arithmetic operators, relational operators"]}
{"id": "C50", "title": "Branch-splitting programs over intervals cover every scalar execution", "statement": "For any program built from interval expressions and the documented pattern c = cond; if (possibly(c)) assign_partial(r, A'); if (possibly_not(c)) assign_partial(r, B') where A', B' may use variables constrained by c and !c, nested to any depth, the interval run contains the result of the scalar run of the same program for every choice of elements of the inputs.", "quantifier": "All programs of the pattern, all inputs.", "why_tests_cant": "Structural induction over programs and all scalar executions.", "anchors": ["README.md: branching sections", "include/intervals/interval.hpp: constrain, assign_partial", "include/intervals/set.hpp: possibly, possibly_not", "examples/simple3.cpp"]}
{"id": "C51", "title": "Algebraic laws of interval arithmetic", "statement": "X+Y matches Y+X, X*Y matches Y*X, -(-X) matches X, X-Y matches X+(-Y), min/max are commutative and idempotent, merge is commutative, associative and idempotent (as observed by matches()).", "quantifier": "All intervals, all value types.", "why_tests_cant": "All machine numbers.", "anchors": ["include/intervals/interval.hpp: operators"]}
{"id": "C52", "title": "Stream output of sets and intervals", "statement": "Printing a set lists exactly its members in metadata order, separated by commas; printing an assigned interval shows its single value if degenerate and both end points otherwise; printing an unassigned interval fails fast in debug mode.", "quantifier": "All sets and intervals.", "why_tests_cant": "All set sizes.", "anchors": ["include/intervals/interval.hpp: operator<<", "include/intervals/set.hpp: operator<<"]}
{"id": "C53", "title": "Debug checks only reject, they never change a result", "statement": "For every operation of the library, a debug build either gives the same outcome as a release build or fails fast.", "quantifier": "All operations on sets, intervals, conditions, iterator intervals and partitions; all arguments, including unassigned and NaN intervals.", "why_tests_cant": "Tests run in one configuration and compare single calls; this relates two builds for all arguments.", "anchors": ["include/intervals/interval.hpp: gsl_ExpectsDebug", "include/intervals/set.hpp: gsl_ExpectsDebug", "include/intervals/detail/interval.hpp: gsl_ExpectsDebug", "include/intervals/math.hpp: gsl_ExpectsDebug", "include/intervals/algorithm.hpp: gsl_AssertDebug"]}
{"id": "C54", "title": "Unassigned operands fail fast in debug builds", "statement": "Every operation documented to require assigned operands (bounds, relations, arithmetic, min/max, mathematical functions, classification, blending, iterator arithmetic, set comparison, negation, value) fails fast in a debug build if an operand is unassigned; an iterator interval can never be copied in an unassigned state, in any build.", "quantifier": "All value types, all unassigned intervals and empty sets, all other operands.", "why_tests_cant": "Unassigned intervals have arbitrarily many representations (any lower > upper).", "anchors": ["include/intervals/interval.hpp: gsl_ExpectsDebug(assigned)", "include/intervals/set.hpp: gsl_ExpectsDebug(assigned)"]}
{"id": "C55", "title": "Arithmetic of operands of different value types", "statement": "For operands of different value types (int with double, int with long, float with double, any widths and formats whose usual arithmetic conversion is value-range preserving), +, -, * return a result exactly if the scalar operator is defined on all pairs of elements, namely NaN if some pointwise result is NaN and the exact hull of the pointwise results otherwise; the same holds for / if the divisor has no zero; floating-point / reports NaN exactly if some quotient is NaN, and otherwise contains every quotient by a nonzero element of the divisor if zero end points of the divisor have the sign of its interior; integer / by an interval traps exactly if the divisor contains zero.", "quantifier": "All pairs of value types with their conversions to the common type, all operands (scalars and intervals), both builds.", "why_tests_cant": "Infinitely many operands and conversions; rounding of the conversion of integers to floating point depends on the operands.", "anchors": ["include/intervals/interval.hpp: operator+, operator-, operator*, operator/ (205-414)", "include/intervals/type_traits.hpp: common_interval_value_t"]}
{"id": "C56", "title": "Comparisons of operands of different value types", "statement": "For assigned operands of different value types, <, <=, >, >= return exactly the set of truth values of the scalar comparison over all pairs of elements; == and != return exactly that set as well.", "quantifier": "All pairs of value types with their conversions to the common type, all assigned operands.", "why_tests_cant": "Infinitely many operands; the converted elements of one operand may skip values between its converted end points.", "anchors": ["include/intervals/interval.hpp: compare_eq, compare_neq, compare_lt, compare_leq (47-106)", "include/intervals/interval.hpp: relational operators (108-186)"]}
{"id": "C57", "title": "Conversions of intervals between value types keep all elements", "statement": "interval<T>(interval<U>) contains the converted value of every element and has converted elements as end points; it is undefined behaviour exactly if the conversion of some element is; unassigned intervals stay unassigned. narrow and narrow_failfast to a smaller floating-point format succeed exactly if both end points are numbers of that format and then preserve them, and throw or fail fast otherwise (also for NaN); narrow_cast gives the hull of the rounded elements. The scalar conversions round to nearest, ties to even, keeping the sign of zero, give an infinity on overflow, and truncate towards zero for integers.", "quantifier": "All intervals, all integer widths and floating-point formats.", "why_tests_cant": "Rounding, overflow and truncation depend on all end points.", "anchors": ["include/intervals/interval.hpp: converting constructors (740-748, 810-818)", "include/intervals/interval.hpp: narrow_cast, narrow, narrow_failfast (1391-1423)"]}
{"id": "C58", "title": "as_regular makes copyable types assignable", "statement": "Variables of type as_regular<T> behave like plain assignable variables in every program that initialises, copies, moves, assigns, swaps and destroys them: copy assignment gives the left-hand side the copied value and changes nothing else, also if both sides are the same variable; if the copy constructor throws, no variable has changed; move assignment and swap transfer the values, also of a variable to itself; no temporary outlives an assignment.", "quantifier": "All types T with copy and move constructors that return or throw, all programs and all initial stores.", "why_tests_cant": "Lifetime errors of in-place destruction and reconstruction show no symptom for trivially copyable types, and the number of programs is unbounded.", "anchors": ["include/intervals/utility.hpp: as_regular (12-66)"]}
{"id": "C59", "title": "Iterators of enumerate stand for the remaining values", "statement": "In every program that copies, assigns, compares, dereferences, pre- and post-increments the iterators of enumerate, each iterator stands for the ascending list of values it has still to visit: copies are independent, it++ returns the position before, default-constructed and exhausted iterators equal the sentinel, and dereferencing or incrementing them fails fast.", "quantifier": "All integer and iterator intervals, all sets of all enumeration types, all scalars; all sequences of iterator operations on any number of variables.", "why_tests_cant": "Unbounded interleavings of operations on several iterators over intervals of any length.", "anchors": ["include/intervals/detail/algorithm.hpp: single_value_iterator, set_value_iterator, interval_value_iterator (25-231)", "include/intervals/algorithm.hpp: enumerate (172-195)"]}
{"id": "C60", "title": "Searches with a comparison chosen by the caller find the positions of all elements", "statement": "lower_bound and upper_bound with std::less<>, std::less_equal<>, std::greater<> or std::greater_equal<> on a range arranged accordingly (ascending or descending, of any length) return the hull of the positions that the scalar search returns for the elements of the interval; constraining the interval by the returned partitioning and an index keeps every element whose position is denoted by the index, and for discrete value types keeps no other; a search with <= (>=) is the other search with < (>).", "quantifier": "All value types, all arranged ranges of any length, all intervals, all indices and index intervals, debug and release builds.", "why_tests_cant": "Ranges have any length; duplicates and descending order multiply the cases.", "anchors": ["include/intervals/algorithm.hpp: lower_bound, upper_bound (126-169), constrain (56-82)"]}
{"id": "C61", "title": "constrain by an operand of a narrower type of the same kind loses nothing", "statement": "constrain(x, x R y) and constrain(x, y R x), where y is a number or an interval of a narrower integer type (int for interval<long>) or a smaller floating-point format (float for interval<double>), keep every element of x for which the comparison holds for some element of y; the result has no other elements (for floating point: < and > closed), is the hull of them for !=, and the program fails fast if there are none.", "quantifier": "All pairs of integer widths and floating-point formats, all comparisons, both operand orders, all intervals, debug and release builds.", "why_tests_cant": "Errors occur only at the end points of the narrower type.", "anchors": ["include/intervals/detail/interval.hpp: constrain (440-627), succ, pred (244-269)", "include/intervals/interval.hpp: relational operators (108-186)"]}
{"id": "C62", "title": "Narrowing between floating-point and integer intervals preserves values or reports an error", "statement": "narrow and narrow_failfast between floating-point and integer intervals return an interval with the same end points if both are numbers of the target type; otherwise narrow throws and narrow_failfast fails fast. narrow_cast returns the hull of the truncated (rounded) elements. Unassigned intervals stay unassigned. Conversions of integers to a format with enough digits always succeed.", "quantifier": "All integer widths, all floating-point formats, all intervals.", "why_tests_cant": "Depends on rounding at the limits of both types.", "anchors": ["include/intervals/interval.hpp: narrow_cast, narrow, narrow_failfast (1391-1423)", "README.md: narrowing conversions (680-699)"]}
{"id": "C63", "title": "Searches in a table whose elements have another type than the interval", "statement": "lower_bound and upper_bound of an interval in a sorted range of numbers of another type (int or float elements, interval<double>; int elements, interval<long>) return the hull of the positions of its elements among the converted range elements; constraining the interval by the returned partitioning and an index keeps every element whose position is denoted by the index.", "quantifier": "All sorted ranges of any length, all intervals, all indices and index intervals, all conversions between the value types.", "why_tests_cant": "Ranges have any length; the defect needs an element strictly between two integers.", "anchors": ["include/intervals/algorithm.hpp: lower_bound, upper_bound (126-169), constrain (56-82)", "include/intervals/detail/interval.hpp: constrain (485-540)"]}
{"id": "C64", "title": "Violated preconditions of mathematical functions are reported in debug builds and ignored in release builds", "statement": "In a debug build sqrt and log of an interval fail fast exactly if an element is negative, asin and acos exactly if an element is outside [-1,1], the scalar functions and the scalar atan2 exactly outside of their domain; blend_fractions fails fast exactly if an element of the fraction is outside [0,1]; blend_linear exactly if some choice of weights is negative or has a sum that is not positive, and fractional_weights at least then; likewise the scalar blends. In a release build blend_fractions returns and the scalar blends return the weighted sum for whatever weights.", "quantifier": "All floating-point formats and exact arithmetic, all intervals and scalars without NaN, all monotone implementations of log.", "why_tests_cant": "The offending element can be anywhere in an interval; the sum is rounded.", "anchors": ["include/intervals/math.hpp: sqrt, log, asin, acos, atan2, fractional_weights, blend_fractions, blend_linear, blend_quadratic", "include/intervals/interval.hpp: sqrt, log, asin, acos, fractional_weights, blend_fractions, blend_linear"]}
{"id": "C65", "title": "Floating-point results are the exact real ranges rounded to nearest", "statement": "For operands with finite end points, the end points of X+Y, X-Y, X*Y, X/Y (if 0 is not between the end points of Y), -X, abs(X), square(X) and sqrt(X) (non-negative X) are the least and the greatest exact result for real numbers between the end points, rounded to nearest with ties to even, an infinity on overflow. Hence every exact real result lies within half a unit in the last place of the returned interval; end points are not rounded outward, so an exact result can lie outside.", "quantifier": "All floating-point formats, all operands with finite end points (intervals and scalars), all real numbers between the end points.", "why_tests_cant": "Quantifies over all real numbers between the end points and over all formats; rounding errors are invisible to tests that compute in the same format.", "anchors": ["include/intervals/interval.hpp: operator+, operator-, operator*, operator/, abs, square, sqrt"]}
{"id": "C66", "title": "Machine intervals of cos and sin are the exact ranges up to a small deviation", "statement": "If pi is the machine number nearest to PI and the computed cosine of arguments up to 7 is a number in [-1,1] that differs from the cosine by at most eps, then cos(X) and sin(X) for X with finite end points of magnitude at most B return an interval inside [-1,1] that contains every exact value for a real number between the end points, and whose end points are exact values for such numbers, up to a deviation of eps + (12 B + 64) 2^-prec for cos and eps + (14 B + 90) 2^-prec for sin. The deviation cannot be dropped: sin of [0,0] does not contain 0.", "quantifier": "All floating-point formats of precision at least 4 (cos) or 6 (sin), all such implementations of cos, all intervals with finite end points below 2^(prec-4) or 2^(prec-5).", "why_tests_cant": "The argument is reduced to [-pi, pi) with a rounded pi and extrema are found by comparing rounded numbers with rounded multiples of pi; the deviation must be bounded for all intervals and all exact values between their end points.", "anchors": ["include/intervals/interval.hpp: cos, sin", "include/intervals/math.hpp: wraparound"]}
{"id": "C67", "title": "Machine intervals of pow contain the powers of their elements up to a small deviation", "statement": "With a monotone log and exp, pow(X,Y) for a nonnegative base is exactly the smallest interval containing exp(w log v) (0 times anything being 0) for all machine numbers v in X, w in Y; for a base with a negative lower end point and an integer exponent it contains the signed formula of all elements, and is the smallest such interval if the base is negative. If log is accurate up to el and exp up to a relative error ex, then every exact power of real numbers between the end points lies in the interval, and its end points are such powers, up to the factor (1 + ex) exp(E) or (1 - ex) exp(-E), where E = A el + 2^-prec (A (Lam + el) + 1), A bounds the exponents and Lam the logarithms. The factor cannot be dropped: pow([2,2], 1000) does not contain 2^1000, even if log(2) is the best machine number.", "quantifier": "All floating-point formats, all such implementations of log and exp, all bases and exponents with finite end points for which the exponential does not overflow; the formula for all proper bases and exponents with finite end points (infinite ones: C77).", "why_tests_cant": "The error of the logarithm is multiplied by the exponent before it is exponentiated; all values between the end points and all implementations of log and exp are concerned.", "anchors": ["include/intervals/interval.hpp: pow", "include/intervals/math.hpp: pow"]}
{"id": "C68", "title": "Machine intervals of cbrt, log, exp, asin, acos, atan and atan2 are the exact ranges up to the accuracy of the C library", "statement": "If the C function differs from the exact function by at most eps at machine numbers between the end points, then cbrt(X), log(X) (positive X), exp(X), asin(X), acos(X) (X inside [-1,1]), atan(X) and atan2(Y,X) (no point of the box on the branch cut y = 0, x <= 0) return an interval that contains every exact value for real numbers between the end points up to eps, and whose end points are exact values up to eps. No other error is introduced, in particular atan2 does not have to be monotone in machine arithmetic. If the box of atan2 touches the branch cut, the result is the interval of NaNs.", "quantifier": "All floating-point formats, all such implementations of the C functions (log and exp also monotone), all intervals with finite end points in the domain, scalar and interval operands of atan2.", "why_tests_cant": "Only the end points are computed; that no value between them escapes is a statement about all real numbers between the end points, and atan2 is increasing or decreasing in each operand depending on the quadrant.", "anchors": ["include/intervals/interval.hpp: cbrt, log, exp, asin, acos, atan, atan2"]}
{"id": "C69", "title": "Machine intervals of tan are the exact ranges up to a small deviation if no pole is near", "statement": "If pi is the machine number nearest to PI, the computed tangent is accurate up to eps away from poles and the cosine of every number between the end points of X is at least c in magnitude, then tan(X) returns an interval that contains every exact value and whose end points are exact values, up to eps + 2 d / c^2 with d = (6 B + 20) 2^-prec, where B bounds the end points and d <= c/2. Intervals wider than PI + (4 B + 8) 2^-prec give everything. An interval narrower than PI - (4 B + 20) 2^-prec that contains a pole gives a bounded interval, although the tangent is unbounded there.", "quantifier": "All floating-point formats of precision at least 4, all such implementations of tan, all intervals with finite end points below 2^(prec-4).", "why_tests_cant": "The argument is reduced with a rounded pi and the result is read off two end points; the deviation must be bounded for all intervals and all real numbers between the end points.", "anchors": ["include/intervals/interval.hpp: tan", "include/intervals/math.hpp: wraparound"]}
{"id": "C70", "title": "Machine results of the blending helpers are the exact values up to a small deviation", "statement": "blend_fractions(f,x,y) and blend_linear(a,b,x,y) of machine intervals return an interval that contains f r + (1-f) s, respectively (a r + b s)/(a + b), for all real numbers between the end points, and whose end points are such values, up to (6 B + 3) 2^-prec, respectively (16 B + 3) 2^-prec, where B bounds the magnitude of x and y. If fractional_weights(a,b) returns, its intervals are the ranges of a/(a+b) and b/(a+b) up to 3 2^-prec; it returns if the range is wider than 6 2^-prec, and otherwise it returns or fails a precondition. The functions of numbers deviate by at most 3 2^-prec (fractional_weights), (6 B + 3) 2^-prec (blend_fractions), (11 B + 3) 2^-prec (blend_linear) and (20 B + 10) 2^-prec (blend_quadratic).", "quantifier": "All floating-point formats of precision at least 2, all valid arguments with finite end points, B at most 2^(emax-3); weights at most 2^(emax-2) except for blend_linear of intervals; (4 B + 2)^2 at most 2^(emax-2) for blend_quadratic.", "why_tests_cant": "blend_linear divides the weights, adds 1 and inverts; quotients may overflow or underflow on the way, and the deviation must be bounded for all of them and for all real numbers between the end points.", "anchors": ["include/intervals/interval.hpp: fractional_weights, blend_fractions, blend_linear", "include/intervals/math.hpp: fractional_weights, blend_fractions, blend_linear, blend_quadratic"]}
{"id": "C71", "title": "The blending helpers give the same values for operands of different value types", "statement": "fractional_weights, blend_fractions and blend_linear accept operands of different value types whose common type is a floating-point type. The results are those for operands converted to the common type, up to the rounding errors of that type (C70): fractional_weights(a,b) is the result for the converted weights, blend_fractions(f,x,y) contains f r + (1-f) s and blend_linear(a,b,x,y) contains (a r + b s)/(a + b) for all real numbers between the end points, and the end points are such values.", "quantifier": "All integer types and narrower floating-point types for fractions and weights, all floating-point formats for the values, scalar and interval operands with finite end points, both build types.", "why_tests_cant": "1 - f and 1/(1 + b/a) are computed in the type of the fraction and the weights, not in the type of the result; tests with operands of one type cannot see it, and for integers the division is another function.", "anchors": ["include/intervals/interval.hpp: fractional_weights, blend_fractions, blend_linear", "include/intervals/detail/concepts-internal.hpp: floating_point_operands"]}
{"id": "C72", "title": "pow with an integer exponent", "statement": "pow(x, n) and pow(x, [m, n]) with a floating-point base and exponents of a signed integer type never have undefined behaviour. For a base without negative elements the result is that for the converted exponents. For a base with negative elements and one exponent n the result contains exp(n log x), with the sign of an even or odd power according to n itself, also if n is not a floating-point number; it is the hull of these values if all elements are negative, and in real arithmetic it contains all n-th powers. For a base with negative elements and more than one exponent it is NaN. Exponents that are floating-point numbers may be converted beforehand without changing anything. Other exponents may not: (-1)^n is -1 for n = 2^53 + 1, but 1 for n converted to double.", "quantifier": "All integer types of at most 64 bits, all floating-point formats whose exponent range includes them and real arithmetic, every C library with non-decreasing log and exp (for the absence of undefined behaviour: every C library), scalar and interval operands, both build types.", "why_tests_cant": "Exponents beyond 2^53 and the end points of the integer types, whose conversion to the type of the base rounds, are out of reach of tests; so is every C library.", "anchors": ["include/intervals/interval.hpp: pow, _multiply_0", "include/intervals/detail/concepts-internal.hpp: floating_point_operands"]}
{"id": "C73", "title": "merge and intersect of intervals of different value types", "statement": "merge(X, Y1..Yn) with X of another value type is the smallest interval containing all Yi and all elements of X converted to the common type. intersect(X1..Xn) of intervals of any value types contains exactly the numbers of the common type that lie between converted elements of every argument.", "quantifier": "Any number of arguments, each with its own value type and any of the usual arithmetic conversions (also those that round), all intervals.", "why_tests_cant": "Arbitrary argument counts, value types and values; rounding conversions.", "anchors": ["include/intervals/interval.hpp: merge, intersect, interval(interval_base<U> const&)", "include/intervals/detail/interval.hpp: narrow_interval"]}
{"id": "C74", "title": "Overloads for plain numbers agree with those for intervals", "statement": "If a generic program is instantiated with numbers instead of intervals, the overloads chosen for numbers (sgn, sign*T, T*sign, assign, assign_partial, reset, merge, intersect) return a value that lies in what the overloads for intervals return, whenever the numbers lie in the intervals. A sign times an interval is the smallest interval containing the value itself, 0, or the negated value of each element.", "quantifier": "All integer widths and floating-point formats, debug and release builds, all numbers and all intervals containing them, any number of arguments.", "why_tests_cant": "Arbitrary values and argument counts; the tests exercise the scalar overloads with a handful of literals and never compare them with the interval overloads.", "anchors": ["include/intervals/sign.hpp: sgn, operator*", "include/intervals/detail/sign.hpp", "include/intervals/math.hpp: assign, assign_partial, reset, merge, intersect", "include/intervals/interval.hpp: operator*(interval, sign), sgn, merge, intersect"]}
{"id": "C75", "title": "Piecewise programs over a table", "statement": "A function that searches its argument in a sorted table (lower_bound or upper_bound), enumerates the positions, constrains the argument to each position and runs a body that may depend on the position gives, for an interval argument, a result containing the result for every element, if it returns, and the result is the smallest interval containing the results of the pieces. In a table without repeated entries the enumeration visits exactly the positions of the elements, and the function returns if every body does on the values of its piece.", "quantifier": "All value types, debug and release builds, both searches, all sorted tables, all bodies (programs of expressions, branches, constraints, local functions), all arguments and further parameters.", "why_tests_cant": "Arbitrary tables and arbitrary bodies; no test combines the searches, enumerate and constrain.", "anchors": ["examples/interpolate-linear.cpp: interpolate_linear", "include/intervals/algorithm.hpp: lower_bound, upper_bound, enumerate, constrain", "include/intervals/detail/algorithm.hpp: partitioning"]}
{"id": "C76", "title": "Programs with narrower inputs give narrower results", "statement": "If the inputs of a program are replaced by subintervals, every expression of it gives a nonempty result inside the one for the wider inputs, no test gets a new truth value, and, if the run returns, its result is inside the result for the wider inputs. So cutting the inputs into boxes and running each box only sharpens the result and still covers every result of the run over numbers. The run returns whenever the run over the wider inputs does.", "quantifier": "All value types and floating-point types with monotone <cmath>, debug and release builds, all expressions, tests and programs (branches, constraints by conjunctions, local functions), all nested inputs on which the wider run meets no NaN and leaves no domain.", "why_tests_cant": "Quantifies over all programs and all pairs of nested inputs; the tests never compare two runs.", "anchors": ["README.md: dependency problem, constrain", "include/intervals/interval.hpp: operators, constrain, if_else, assign_partial", "include/intervals/detail/interval.hpp: constrain"]}
{"id": "C77", "title": "pow is the hull of the computed powers, with infinite operands and bases of both signs too", "statement": "With a monotone log and exp, pow(X,Y) for a base without negative elements is exactly the smallest interval containing exp(w log v) for all v in X and w in Y, infinite end points included, where infinity times zero counts as zero: so the exponent 0 gives 1 for every base and the base 1 gives 1 for every exponent. For a base with negative elements and a single integer exponent n it is the smallest interval containing the powers of the elements >= 0 and the powers of the absolute values of the elements <= 0 with the sign of (-1)^n, zero counting as a limit from both sides. For any other exponent the result is NaN, or the behaviour is undefined because the lower end point of the exponent cannot be converted to long long.", "quantifier": "All floating-point formats and exact arithmetic, all monotone implementations of log and exp, debug and release builds, all proper bases and exponents, scalars or intervals.", "why_tests_cant": "Quantifies over all numbers between the end points, all implementations of log and exp, and products with infinity at the corners, which no test reaches.", "anchors": ["include/intervals/interval.hpp: pow", "include/intervals/interval.hpp: _multiply_0"]}
{"id": "C78", "title": "Subdividing the inputs converges to the exact range", "statement": "In exact arithmetic the overestimation of an expression without if_else and without rounding functions vanishes in the limit: for every tolerance there is a width such that on all inputs of at most this width, inside a given box, the result is at most the tolerance wide. So if the box is cut into pieces this small, the results of the pieces together contain every value of the expression on the box, and no number in them is farther than the tolerance from such a value. With floor, ceil, round or if_else this fails at a jump.", "quantifier": "Exact real arithmetic, all expressions of any size over +, -, *, /, min, max, square, cube, abs, sqrt, cbrt, exp, log, atan, asin, acos, all boxes on which every subexpression has finite bounds and stays within its domain, all tolerances, all subdivisions; debug and release builds.", "why_tests_cant": "A limit: quantifies over all tolerances, all subdivisions and all expressions.", "anchors": ["README.md: dependency problem", "include/intervals/interval.hpp: arithmetic operators and mathematical functions"]}
{"id": "C79", "title": "An expression that mentions each variable once is not overestimated", "statement": "If an expression without if_else mentions each of its variables at most once, its interval result is exactly the smallest interval containing its values on the box, in machine arithmetic too, where square and abs have to be applied to variables. In exact arithmetic every number in the result is a value of the expression, also with square and abs of subexpressions and without rounding functions. With a repeated variable this fails (x - x).", "quantifier": "All value types and floating-point types with monotone <cmath>, debug and release builds, all such expressions of any size, all boxes on which the evaluation meets no NaN and leaves no domain; in exact arithmetic: all boxes on which every subexpression has finite bounds.", "why_tests_cant": "Quantifies over all expressions and boxes, and the claim that every number in the result is attained needs the intermediate value theorem.", "anchors": ["README.md: dependency problem", "include/intervals/interval.hpp: arithmetic operators and mathematical functions"]}
{"id": "C80", "title": "Rounding errors of a whole expression stay within an explicitly computed bound", "statement": "If an expression of +, -, *, /, min, max, negation, square, cube, abs, sqrt, exp, log and atan is evaluated with floating-point intervals, the exact real value of the expression at any real numbers between the end points of the inputs exists and lies between the computed end points up to a bound that is computed from the intermediate results by a running error analysis (half an ulp per rounding, accuracy of the C library, propagated through the operations). The scalar program is within the same bound of the exact value. If each variable is mentioned once, each end point is within the bound of an exact value. The bound is attained.", "quantifier": "All binary floating-point formats, debug and release builds, all C libraries of the stated accuracy, all such expressions of any size, all finite boxes and all real points in them, as long as no intermediate result overflows and divisors and arguments of sqrt and log stay inside their domain by more than their error.", "why_tests_cant": "Quantifies over real numbers between the floating-point numbers and over all expressions; tests cannot evaluate the exact value, and rounding errors of single operations say nothing about their accumulation.", "anchors": ["include/intervals/interval.hpp: arithmetic operators and mathematical functions"]}
{"id": "C81", "title": "constrain is tight for combinations of comparisons", "statement": "For a conjunction of comparisons (negations moved inwards) in which X occurs on one side of each comparison that mentions it and no comparison is !=, constrain returns exactly the elements of X that satisfy each comparison for some elements of the other operands, and fails fast exactly if there is none, provided that the condition may be true for independently chosen elements. For a disjunction of two such conjunctions, both mentioning X, a returned result is exactly the hull of the elements that satisfy a side that may be true; the call fails fast exactly if no side may be true, or if a side that may be true is satisfied by no element of X. (For floating point, < and > count as <= and >=.)", "quantifier": "All such conditions of any size, all intervals over all value types, debug and release builds. When a disjunction fails: sides that are single comparisons or may be true.", "why_tests_cant": "Quantifies over all conditions and all elements; a result that is too wide by one value passes every test of enclosure.", "anchors": ["include/intervals/detail/interval.hpp: constrain for logical_and, logical_or"]}
{"id": "C82", "title": "Conditions and if_else on single-use expressions are exact", "statement": "If a condition is built from <, <=, >, >= comparisons of expressions with &, | and !, and mentions each variable once, then possibly(c) is true exactly if the scalar program finds the condition true for some inputs in the box, and possibly_not(c) exactly if it finds it false for some. If an expression with if_else mentions each variable once (conditions included), the interval result is the smallest interval that contains the values of the scalar program. Equality comparisons and repeated variables are excluded: there a condition may be reported as possible although it never holds.", "quantifier": "All value types, debug and release builds, all conditions and expressions of any size, all boxes for which the evaluation meets no NaN and leaves no domain; square and abs of variables only.", "why_tests_cant": "Quantifies over all expressions and all points of all boxes; a spurious `possibly` only makes results wider and passes every test of enclosure.", "anchors": ["include/intervals/interval.hpp: relational operators, if_else", "include/intervals/logic.hpp: possibly, possibly_not", "include/intervals/detail/interval.hpp: logical operators of conditions"]}
{"id": "C83", "title": "Constraints applied one after the other act like their conjunction", "statement": "Constraining x by a condition f, and then the result by a condition g, gives the same elements as constraining x by f & g, and fails fast exactly if that does, provided that g may still be true after the first step. The order of f and g does not matter, constraining by the same condition again changes nothing, and constraining a part of x keeps exactly the common elements of that part and of the result for x. For integers and iterators the proviso is automatic. For floating-point values it is not: x in [0, 1] constrained by (x <= 0) & (x > 0) gives [0, 0], while constraining by x <= 0 first makes the second step fail fast.", "quantifier": "All value types, debug and release builds, all proper intervals, all conditions that amount to conjunctions of comparisons with x on at most one side of each, of any length, and that may be true.", "why_tests_cant": "Relates different sequences of operations on all intervals and all conditions of any size; tests fix a few sequences and intervals.", "anchors": ["include/intervals/interval.hpp:1484-1507 constrain", "include/intervals/detail/interval.hpp: constrain of conditions"]}
{"id": "C84", "title": "Rounding errors do not turn decisions around beyond an explicitly computed margin", "statement": "If an expression with if_else and conditions (comparisons combined by !, & and |) is evaluated with floating-point intervals, and the operands of each comparison are either further apart than their computed rounding errors or may go either way, then the truth value of each condition in real arithmetic is among those reported, a condition reported as certainly true or false is so in real arithmetic, and the exact real value of the whole expression, with all decisions taken in real arithmetic, lies between the computed end points up to a computed bound. The scalar program is within the bound of the exact value. Without the margin this is false: 1 + 2^-53 > 1 is reported as certainly false.", "quantifier": "All binary floating-point formats, debug and release builds, all C libraries of the stated accuracy, all such expressions and conditions of any size, all finite boxes and all real points in them, without overflow and with each operation inside its domain by more than the error.", "why_tests_cant": "Quantifies over real numbers between the floating-point numbers and over all programs; whether a decision is right for real numbers cannot be observed by running the program.", "anchors": ["include/intervals/interval.hpp: if_else, comparison operators", "include/intervals/logic.hpp: possibly, always, logical operators"]}
