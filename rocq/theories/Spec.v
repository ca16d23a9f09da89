(** Vocabulary in which the properties are stated: members, pointwise images.  Nothing here refers to an algorithm
    of the library. *)
From Coq Require Import List NArith Bool.
From Verif Require Import Outcome SetModel.

(** Pointwise images of predicates ("set extensions" of unary and binary functions). *)
Definition ext1 {A B : Type} (f : A -> B) (P : A -> Prop) (z : B) : Prop :=
  exists a, P a /\ f a = z.
Definition ext2 {A B C : Type} (f : A -> B -> C) (P : A -> Prop) (Q : B -> Prop) (z : C) : Prop :=
  exists a b, P a /\ Q b /\ f a b = z.

(** [v] is a member of the set [s]: the bit at the position at which the reflection metadata lists [v] is set. *)
Definition member {E : enum_type} (s : vset E) (v : E) : Prop :=
  exists i, nth_error (ev_values E) i = Some v /\ N.testbit (state s) (N.of_nat i) = true.

(** Sanity of reflection metadata: equality is equality, and no value is listed twice. *)
Definition enum_ok (E : enum_type) : Prop :=
  (forall a b : E, ev_eqb E a b = true <-> a = b) /\ NoDup (ev_values E).

(** The states a [std::bitset<num_values>] can have: no bit beyond [num_values]. *)
Definition wf_set {E : enum_type} (s : vset E) : Prop :=
  forall i, (num_values E <= i)%nat -> N.testbit (state s) (N.of_nat i) = false.

(** Same members. *)
Definition same_members {E : enum_type} (s t : vset E) : Prop := forall v, member s v <-> member t v.
(** [v] is the only member. *)
Definition only_member {E : enum_type} (s : vset E) (v : E) : Prop :=
  member s v /\ forall w, member s w -> w = v.
(** The order on truth values used by the comparison operators on [set<bool>]: false < true. *)
Definition bool_le (a b : bool) : bool := implb a b.
Definition bool_lt (a b : bool) : bool := negb a && b.

(** ** Histories of a mutable set *)
Definition set_op_gives {E : enum_type} (o : set_op E) (v : E) : Prop :=
  match o with
  | SAssignValue w => v = w
  | SAssignSet t | SResetTo t => member t v
  | SReset => False
  end.
Definition set_op_resets {E : enum_type} (o : set_op E) : Prop :=
  match o with SReset | SResetTo _ => True | _ => False end.
(** [v] was given by an operation after which no other reset took place. *)
Definition given_since_reset {E : enum_type} (ops : list (set_op E)) (v : E) : Prop :=
  exists pre o post, ops = (pre ++ o :: post)%list /\ set_op_gives o v /\ Forall (fun p => ~ set_op_resets p) post.
(** The precondition of each operation: listed values only, and in debug mode no partial assignment of an empty set.
    Argument sets are real [std::bitset] values. *)
Definition set_op_legal {E : enum_type} (dbg : bool) (o : set_op E) : Prop :=
  match o with
  | SAssignValue v => In v (ev_values E)
  | SAssignSet t => dbg = false \/ exists v, member t v
  | _ => True
  end.
Definition set_op_wf {E : enum_type} (o : set_op E) : Prop :=
  match o with SAssignSet t | SResetTo t => wf_set t | _ => True end.

(** ** Boolean formulas, evaluated on truth values *)
Inductive form := FVar (n : nat) | FNot (f : form) | FAnd (f g : form) | FOr (f g : form) | FXor (f g : form).
Fixpoint form_vars (f : form) : list nat :=
  match f with
  | FVar n => (n :: nil)%list
  | FNot f => form_vars f
  | FAnd f g | FOr f g | FXor f g => (form_vars f ++ form_vars g)%list
  end.
Fixpoint form_bool (r : nat -> bool) (f : form) : bool :=
  match f with
  | FVar n => r n
  | FNot f => negb (form_bool r f)
  | FAnd f g => form_bool r f && form_bool r g
  | FOr f g => form_bool r f || form_bool r g
  | FXor f g => xorb (form_bool r f) (form_bool r g)
  end.
