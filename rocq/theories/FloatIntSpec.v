(** Vocabulary for narrowing conversions between floating-point and integer value types. *)
From Coq Require Import ZArith Reals.
From Flocq Require Import Core BinarySingleNaN.
From Verif Require Import Num IntervalModel IntNum FloatNum.
Open Scope Z_scope.

(** The floating-point number [v] is the integer [n]. *)
Definition is_integer {prec emax : Z} (v : binary_float prec emax) (n : Z) : Prop := is_finite v = true /\ B2R v = IZR n.
(** [v] is a number of the integer type of [w] bits. *)
Definition fits_int {prec emax : Z} (w : Z) (v : binary_float prec emax) : Prop := exists n : int w, is_integer v (val n).
(** The integer part of [v] is a number of the integer type of [w] bits. *)
Definition part_fits {prec emax : Z} (w : Z) (v : binary_float prec emax) : Prop := is_finite v = true /\ int_min w <= Ztrunc (B2R v) <= int_max w.
(** The integer [n] is a number of the floating-point format. *)
Definition fits_float (prec emax : Z) {w : Z} (n : int w) : Prop := exists v : binary_float prec emax, is_integer v (val n).
