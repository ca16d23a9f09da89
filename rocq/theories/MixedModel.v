(** [constrain] for a comparison of an interval with an operand of another value type (interval.hpp 108-186, 1500-1507;
    detail/interval.hpp 244-269, 440-627): a floating-point interval compared with an integer or an integer interval, or an
    interval compared with an operand of a narrower type of the same kind.  The usual arithmetic conversions convert the
    operand to the value type of the interval ([conv]) in comparisons and in [std::min<T>], [std::max<T>]; [succ] and [pred]
    act on the operand before the conversion.  Simplification: for integer types narrower than int, where [++] and [--]
    wrap around, the model has undefined behaviour at the largest and smallest number as for int. *)
From Coq Require Import Bool ZArith.
From Flocq Require Import Core BinarySingleNaN.
From Verif Require Import Outcome SetModel Num IntervalModel ConstrainModel CondSpec IntNum FloatNum.

Section Mixed.
  Context {O I : ordty} (conv : I -> O) (dbg : bool).

  (** The other operand as seen by comparisons and by [std::min<T>], [std::max<T>]. *)
  Definition conv_arg (y : arg I) : arg O :=
    match y with Sc n => Sc (conv n) | Iv Y => Iv (Ivl (conv (lo Y)) (conv (hi Y))) end.

  (** x < y (detail/interval.hpp 491-515): x on the left of [less_constraint]. *)
  Definition mixed_below (X : ivl O) (y : arg I) : outcome (ivl O) :=
    if bcontains (compare_lt (Iv X) (conv_arg y)) true then
      expects_debug dbg (o_lt (lo X) (conv (aupper y))) ;;;
      p <- o_pred (aupper y) ;;
      mk (lo X) (omin (hi X) (conv p))
    else FailFast.
  (** y < x (detail/interval.hpp 516-540). *)
  Definition mixed_above (X : ivl O) (y : arg I) : outcome (ivl O) :=
    if bcontains (compare_lt (conv_arg y) (Iv X)) true then
      expects_debug dbg (o_lt (conv (alower y)) (hi X)) ;;;
      s <- o_succ (alower y) ;;
      mk (omax (conv s) (lo X)) (hi X)
    else FailFast.

  (** constrain(x, x R y) if [left], constrain(x, y R x) otherwise; [x] is an lvalue with the value [X], [y] a scalar or an
      rvalue interval.  [<=], [>=], [==], [!=] do not use [succ] and [pred] ([!=] only if the value type of x is integral);
      there the code for operands of one type applies to the converted operand. *)
  Definition mixed_constrain (R : rel) (left : bool) (X : ivl O) (y : arg I) : outcome (ivl O) :=
    expects_debug dbg (assigned X && aassigned y) ;;;
    let x := OpId 0 X in let z := OpVal (conv_arg y) in
    match R, left with
    | RLt, true | RGt, false => mixed_below X y
    | RLt, false | RGt, true => mixed_above X y
    | RLe, true | RGe, false => constrain dbg 0 X (CLe (compare_leq (op_arg x) (op_arg z)) x z)
    | RLe, false | RGe, true => constrain dbg 0 X (CLe (compare_leq (op_arg z) (op_arg x)) z x)
    | REq, true => constrain dbg 0 X (CEq (compare_eq (op_arg x) (op_arg z)) x z)
    | REq, false => constrain dbg 0 X (CEq (compare_eq (op_arg z) (op_arg x)) z x)
    | RNe, true => constrain dbg 0 X (CNe (compare_neq (op_arg x) (op_arg z)) x z)
    | RNe, false => constrain dbg 0 X (CNe (compare_neq (op_arg z) (op_arg x)) z x)
    end.
End Mixed.

(** Conversion of an integer to a floating-point type: rounding to nearest, ties to even. *)
Definition int_to_float (w prec emax : Z) (Hp : Prec_gt_0 prec) (He : Prec_lt_emax prec emax) (n : int w) : binary_float prec emax :=
  @binary_normalize prec emax Hp He mode_NE (val n) 0 false.
(** [int] to [double]. *)
Definition int_to_double (n : int32) : float64 := int_to_float 32 53 1024 prec_gt_0_53 prec_lt_emax_64 n.
