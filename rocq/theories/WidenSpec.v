(** Vocabulary for comparisons with an operand of a narrower type of the same kind. *)
From Coq Require Import Bool ZArith.
From Flocq Require Import Core BinarySingleNaN.
From Verif Require Import Outcome Num NumLaws IntervalModel IvlSpec CondSpec IntNum FloatNum MixedArithModel.
Open Scope Z_scope.

(** Conversions that keep every value: to a wider integer type, to a floating-point type with more digits and a larger range. *)
Inductive widens : forall I T : num, (I -> T) -> Prop :=
| wi_int w w' Hw Hw' H : widens (int_num w Hw) (int_num w' Hw') (int_widen w w' Hw H)
| wi_float prec emax Hp He prec' emax' Hp' He' : prec <= prec' -> emax <= emax' ->
    widens (float_num prec emax Hp He) (float_num prec' emax' Hp' He') (float_conv prec emax prec' emax' Hp' He').
(** The end point of the operand that bounds the other operand in a strict comparison. *)
Definition strict_end {I : ordty} (R : rel) (left : bool) (y : arg I) : I :=
  match R, left with RLt, true | RGt, false => aupper y | _, _ => alower y end.
(** It is not the smallest (largest) number of an integer type. *)
Definition steps {I : ordty} (R : rel) (left : bool) (y : arg I) : Prop := exists m, mixed_step R left (strict_end R left y) = Ret m.
