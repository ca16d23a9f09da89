(** Narrowing conversions of intervals between floating-point and integer value types (interval.hpp 1391-1423; the scalar
    functions of math.hpp 292-310 forward to gsl-lite).  The scalar conversions are those of gsl-lite: [narrow_cast] is a
    static_cast; [narrow] and [narrow_failfast] convert with a static_cast, convert the result back with a static_cast and
    compare it with the argument; if it differs, [narrow] throws and [narrow_failfast] fails fast.  A static_cast of a
    floating-point number to an integer type that cannot hold its integer part is undefined behaviour. *)
From Coq Require Import Bool ZArith.
From Flocq Require Import Core BinarySingleNaN.
From Verif Require Import Outcome Num IntervalModel IntNum FloatNum MixedModel MixedArithModel.

(** gsl::narrow, gsl::narrow_failfast; [err] is the outcome if the value changes. *)
Definition narrow_with {U T : num} (cast : U -> outcome T) (back : T -> outcome U) (err : outcome T) (v : U) : outcome T :=
  t <- cast v ;; b <- back t ;; if o_eq b v then Ret t else err.
(** The conversion of an interval (interval.hpp 1391-1423) with the scalar conversion [f]; the end points are converted in
    the order of the initializer list. *)
Definition inarrow_with {U T : num} (f : U -> outcome T) (X : ivl U) : outcome (ivl T) :=
  if assigned X then l <- f (lo X) ;; u <- f (hi X) ;; mk l u else Ret ivl_default.

Section FloatInt.
  Context {prec emax w : Z} (Hp : Prec_gt_0 prec) (He : Prec_lt_emax prec emax) (Hw : (2 <= w)%Z).
  Notation F := (float_num prec emax Hp He).
  Notation I := (int_num w Hw).
  Definition cast_fi (v : F) : outcome I := float_to_int prec emax w v.
  Definition cast_if (n : I) : outcome F := Ret (int_to_float w prec emax Hp He n).
  (** [narrow_cast<int>], [narrow<int>], [narrow_failfast<int>] of a floating-point interval. *)
  Definition inarrow_cast_fi (X : ivl F) : outcome (ivl I) := inarrow_with cast_fi X.
  Definition inarrow_fi (X : ivl F) : outcome (ivl I) := inarrow_with (narrow_with cast_fi cast_if Throw) X.
  Definition inarrow_failfast_fi (X : ivl F) : outcome (ivl I) := inarrow_with (narrow_with cast_fi cast_if FailFast) X.
  (** [narrow_cast<double>], [narrow<double>], [narrow_failfast<double>] of an integer interval. *)
  Definition inarrow_cast_if (X : ivl I) : outcome (ivl F) := inarrow_with cast_if X.
  Definition inarrow_if (X : ivl I) : outcome (ivl F) := inarrow_with (narrow_with cast_if cast_fi Throw) X.
  Definition inarrow_failfast_if (X : ivl I) : outcome (ivl F) := inarrow_with (narrow_with cast_if cast_fi FailFast) X.
End FloatInt.
