(** Programs whose [constrain]s cannot contradict each other. *)
From Coq Require Import Bool List.
From Verif Require Import Num LangModel LangSpec.
Import ListNotations.

Section Solo.
  Context {N : num}.
  (** One comparison, possibly negated. *)
  Fixpoint solo (t : test N) : bool := match t with QRel _ _ _ => true | QNot t => solo t | _ => false end.
  (** Every [constrain] uses one condition, made of one comparison. *)
  Fixpoint solo_constraints (bs : list (test N)) (p : prog N) : bool :=
    match p with
    | PSkip | PAssign _ => true
    | PSeq p q | PCall p q => solo_constraints bs p && solo_constraints bs q
    | PLet _ p => solo_constraints bs p
    | PIf t p q => solo_constraints (t :: bs) p && solo_constraints (t :: bs) q
    | PConstrain _ k p => match k with KVar k => match nth_error bs k with Some t => solo t | None => false end | _ => false end && solo_constraints bs p
    end.
End Solo.
