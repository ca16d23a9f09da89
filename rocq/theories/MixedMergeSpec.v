(** Specification of [merge] and [intersect] of intervals of different value types (C73). *)
From Coq Require Import List.
From Verif Require Import Num IntervalModel IvlSpec MixedArithModel MixedMergeModel.

Section Spec.
  Context {T : num}.
  (** The conversion is one of the usual arithmetic conversions. *)
  Definition usual (o : operand_to T) : Prop := match o with Same _ => True | From U c _ => converts U T c end.
  Definition oproper (o : operand_to T) : Prop := match o with Same Y => proper Y | From _ _ Y => proper Y end.
  Definition ounassigned (o : operand_to T) : Prop := match o with Same _ => False | From _ _ Y => assigned Y = false end.
  (** [v] is an element of the argument, converted to the common type. *)
  Definition gives (o : operand_to T) (v : T) : Prop := match o with Same Y => el Y v | From U c Y => exists u, el Y u /\ v = c u end.
  (** [v] lies between two such values. *)
  Definition spans (o : operand_to T) (v : T) : Prop := exists a b, gives o a /\ gives o b /\ o_le a v = true /\ o_le v b = true.
End Spec.
