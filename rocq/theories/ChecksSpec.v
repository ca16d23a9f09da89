(** Vocabulary for violated preconditions of the mathematical functions. *)
From Coq Require Import Bool Reals.
From Verif Require Import Outcome Num NumLaws IntervalModel IvlSpec.

(** Some element lies below (above) the number [c]. *)
Definition some_below {N : num} (a : arg N) (c : N) : Prop := exists v, ael a v /\ o_lt v c = true.
Definition some_above {N : num} (a : arg N) (c : N) : Prop := exists v, ael a v /\ o_lt c v = true.
(** Some choice of weights is negative or has a sum that is not positive. *)
Definition bad_weights {N : num} (a b : arg N) : Prop := exists v w, ael a v /\ ael b w
  /\ (o_lt v n_zero = true \/ o_lt w n_zero = true \/ exists s, n_add v w = Ret s /\ o_lt n_zero s = false).
