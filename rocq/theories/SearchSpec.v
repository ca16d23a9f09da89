(** Vocabulary for searches with a comparison. *)
From Coq Require Import Bool List ZArith.
From Verif Require Import Outcome Num NumLaws IntervalModel IvlSpec CondSpec AlgoSpec SearchModel.

(** The relation a comparator stands for, and its reverse. *)
Definition rel_of (c : comparator) : rel := match c with Less => RLt | LessEq => RLe | Greater => RGt | GreaterEq => RGe end.
(** The range is arranged for the comparator: ascending for [<] and [<=], descending for [>] and [>=]; no element is NaN. *)
Definition arranged {O : ordty} (c : comparator) (r : list O) : Prop :=
  forall i j v w, i <= j -> nth_error r i = Some v -> nth_error r j = Some w ->
    match c with Less | LessEq => o_le v w = true | Greater | GreaterEq => o_le w v = true end.
(** The position found for the value [v]: elements before it are ordered before [v] ([lower_at]), or are those before
    which [v] is not ordered ([upper_at]). *)
Definition lower_at {O : ordty} (c : comparator) (r : list O) (v : O) (k : nat) : Prop := splits (fun e => rel_holds (rel_of c) e v = true) r k.
Definition upper_at {O : ordty} (c : comparator) (r : list O) (v : O) (k : nat) : Prop := splits (fun e => rel_holds (rel_of c) v e = false) r k.
(** The neighbours of the result of a constraint: a strict comparison of floating-point numbers is relaxed. *)
Definition relaxed (O : ordty) (R : rel) : rel := if o_disc O then R else rel_weak R.
