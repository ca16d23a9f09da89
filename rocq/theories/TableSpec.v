(** Vocabulary for searches in a range of another value type. *)
From Coq Require Import List ZArith.
From Verif Require Import Outcome Num NumLaws IntervalModel IvlSpec AlgoSpec.

(** The positions of the value [v] among the elements, converted to the type of [v]. *)
Definition table_lower_at {O I : ordty} (c : I -> O) (r : list I) (v : O) (k : nat) : Prop := splits (fun e => o_lt (c e) v = true) r k.
Definition table_upper_at {O I : ordty} (c : I -> O) (r : list I) (v : O) (k : nat) : Prop := splits (fun e => o_lt v (c e) = false) r k.
(** No element is the largest (smallest) number of an integer type. *)
Definition has_next {I : ordty} (r : list I) : Prop := forall e, In e r -> exists s, o_succ e = Ret s.
Definition has_previous {I : ordty} (r : list I) : Prop := forall e, In e r -> exists p, o_pred e = Ret p.
