(** Vocabulary for combinations of comparisons that constrain one object (C32, C35). *)
From Coq Require Import Bool.
From Verif Require Import Outcome SetModel Spec Num NumLaws IntervalModel IvlSpec ConstrainModel CondSpec.

Section Conj.
  Context {O : ordty}.
  (** [v] satisfies each comparison with the object [x] for some element of the other operand; strict comparisons are treated as weak ones
      where there is no next value. *)
  Fixpoint meets (x : nat) (f : cform O) (v : O) : Prop :=
    match f with
    | GRel R s t => mentions x f = true -> solution x (if o_disc O then R else rel_weak R) s t v
    | GAnd f g => meets x f v /\ meets x g v
    | _ => True
    end.
  (** No comparison has [x] on both sides, and none states that [x] differs from something. *)
  Fixpoint one_sided (x : nat) (f : cform O) : Prop :=
    match f with
    | GRel R s t => mentions x f = true -> R <> RNe /\ xorb (tmentions x s) (tmentions x t) = true
    | GAnd f g | GOr f g => one_sided x f /\ one_sided x g
    | _ => True
    end.
  (** A single comparison. *)
  Definition single (f : cform O) : Prop := match f with GRel _ _ _ => True | _ => False end.
End Conj.
