(** Vocabulary for constraints applied one after the other (C83). *)
From Coq Require Import Bool Arith.
From Verif Require Import Outcome SetModel Spec Num NumLaws IntervalModel IvlSpec ConstrainModel CondSpec ConjSpec.

Section Succ.
  Context {O : ordty}.
  (** The condition with the object [x] standing for the interval [Y] instead. *)
  Definition trebind (x : nat) (Y : ivl O) (t : term O) : term O := match t with TVar i X => if Nat.eqb i x then TVar i Y else t | TVal a => t end.
  Fixpoint rebind (x : nat) (Y : ivl O) (f : cform O) : cform O :=
    match f with
    | GBool _ | GSet _ => f
    | GRel R s t => GRel R (trebind x Y s) (trebind x Y t)
    | GNot f => GNot (rebind x Y f)
    | GAnd f g => GAnd (rebind x Y f) (rebind x Y g)
    | GOr f g => GOr (rebind x Y f) (rebind x Y g)
    end.
  (** The condition is a combination of comparisons, each with [x] on one side at most, that amounts to a conjunction and mentions [x]; its operands are
      valid, and [x] stands for the interval [X]. *)
  Definition narrows (x : nat) (X : ivl O) (f : cform O) : Prop :=
    legal f /\ unmixed f = true /\ conjunctive (nnf true f) = true /\ one_sided x (nnf true f) /\ mentions x f = true /\ occurs_as x X f.
  Definition same (Y Z : ivl O) : Prop := forall v, el Y v <-> el Z v.
End Succ.
