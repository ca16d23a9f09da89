(** Value types of intervals.

    The templates of the library are instantiated with signed integers, floating-point numbers and random-access
    iterators ([interval_value], concepts.hpp 17-43).  The model is parametric in the value type: a record holds
    what the templates use of it (comparisons, [++]/[--], arithmetic operators, [numeric_limits] constants).  Instances:
    IntNum.v (w-bit two's complement integers), FloatNum.v (IEEE-754 binary formats), IterModel.v (iterators into a
    sequence), RealNum.v (exact real arithmetic, idealisation used for trigonometric functions). *)
From Coq Require Import Bool.
From Verif Require Import Outcome.

(** What relational operators and [detail::succ]/[detail::pred] (detail/interval.hpp 244-269) use.
    [a > b], [a >= b] are [b < a], [b <= a]; [a != b] is [!(a == b)].  [o_disc] is the compile-time condition
    [std::integral<T> || std::random_access_iterator<T>]; incrementing can be undefined behaviour (overflow, past-the-end). *)
Record ordty := {
  car :> Type;
  o_lt : car -> car -> bool;
  o_le : car -> car -> bool;
  o_eq : car -> car -> bool;
  o_disc : bool;
  o_succ : car -> outcome car;
  o_pred : car -> outcome car
}.
Arguments o_lt {o}.
Arguments o_le {o}.
Arguments o_eq {o}.
Arguments o_succ {o}.
Arguments o_pred {o}.

(** Arithmetic types.  [n_float] is the compile-time condition [floating_point_operands].  [n_top]/[n_bot] are the end
    points of a default-constructed interval: [infinity()]/[-infinity()] (interval.hpp 721, 728) or
    [numeric_limits<T>::max()]/[min()] (interval.hpp 790-791, 798).
    Integer overflow is undefined behaviour, hence operators return an [outcome]. *)
Record num := {
  n_ord :> ordty;
  n_float : bool;
  n_top : n_ord;
  n_bot : n_ord;
  n_nan : n_ord;
  n_zero : n_ord;
  n_one : n_ord;
  n_mone : n_ord;
  n_neg : n_ord -> outcome n_ord;
  n_abs : n_ord -> outcome n_ord;
  n_add : n_ord -> n_ord -> outcome n_ord;
  n_sub : n_ord -> n_ord -> outcome n_ord;
  n_mul : n_ord -> n_ord -> outcome n_ord;
  n_div : n_ord -> n_ord -> outcome n_ord
}.
Arguments n_top {n}.
Arguments n_bot {n}.
Arguments n_nan {n}.
Arguments n_zero {n}.
Arguments n_one {n}.
Arguments n_mone {n}.
Arguments n_neg {n}.
Arguments n_abs {n}.
Arguments n_add {n}.
Arguments n_sub {n}.
Arguments n_mul {n}.
Arguments n_div {n}.

(** [intervals::min], [intervals::max] (math.hpp 52-63); [std::min], [std::max] choose in the same way. *)
Definition omin {O : ordty} (lhs rhs : O) : O := if o_lt rhs lhs then rhs else lhs.
Definition omax {O : ordty} (lhs rhs : O) : O := if o_lt lhs rhs then rhs else lhs.

(** [detail::is_negative_inf], [detail::is_positive_inf] (detail/interval.hpp 116-145): constantly false for integers. *)
Definition is_ninf {N : num} (x : N) : bool := n_float N && o_eq x n_bot.
Definition is_pinf {N : num} (x : N) : bool := n_float N && o_eq x n_top.
