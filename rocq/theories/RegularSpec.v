(** What assignable variables do, without constructors, destructors and temporaries. *)
From Coq Require Import List Arith.
From Verif Require Import Outcome RegularModel.
Import ListNotations.

Section Spec.
  Context {V : Type} (copy move : V -> outcome V).
  (** One command relates the contents of the variables before and after; [Some v]: the variable exists and has the value [v]. *)
  Inductive effect : rcmd V -> (nat -> option V) -> outcome unit -> (nat -> option V) -> Prop :=
  | ef_init a v g g' : g a = None -> g' a = Some v -> (forall x, x <> a -> g' x = g x) -> effect (RInit a v) g (Ret tt) g'
  | ef_copy_init a b v w g g' : g a = None -> g b = Some v -> copy v = Ret w ->
      g' a = Some w -> (forall x, x <> a -> g' x = g x) -> effect (RCopyInit a b) g (Ret tt) g'
  | ef_move_init a b v l g g' : g a = None -> g b = Some v -> move v = Ret l ->
      g' a = Some v -> g' b = Some l -> (forall x, x <> a -> x <> b -> g' x = g x) -> effect (RMoveInit a b) g (Ret tt) g'
  (** An assigned variable has the copied value, and nothing else changes, [a = a] included. *)
  | ef_copy_assign a b u v w l g g' : g a = Some u -> g b = Some v -> copy v = Ret w -> move w = Ret l ->
      g' a = Some w -> (forall x, x <> a -> g' x = g x) -> effect (RCopyAssign a b) g (Ret tt) g'
  | ef_move_assign a b u v l g g' : a <> b -> g a = Some u -> g b = Some v -> move v = Ret l ->
      g' a = Some v -> g' b = Some l -> (forall x, x <> a -> x <> b -> g' x = g x) -> effect (RMoveAssign a b) g (Ret tt) g'
  | ef_end a v g g' : g a = Some v -> g' a = None -> (forall x, x <> a -> g' x = g x) -> effect (REnd a) g (Ret tt) g'
  (** A copy that throws changes nothing. *)
  | ef_copy_init_throws a b v g g' : g a = None -> g b = Some v -> copy v = Throw -> (forall x, g' x = g x) -> effect (RCopyInit a b) g Throw g'
  | ef_move_init_throws a b v g g' : g a = None -> g b = Some v -> move v = Throw -> (forall x, g' x = g x) -> effect (RMoveInit a b) g Throw g'
  | ef_copy_assign_throws a b u v g g' : g a = Some u -> g b = Some v -> copy v = Throw -> (forall x, g' x = g x) -> effect (RCopyAssign a b) g Throw g'.

  Inductive effects : list (rcmd V) -> (nat -> option V) -> outcome unit -> (nat -> option V) -> Prop :=
  | es_nil g g' : (forall x, g' x = g x) -> effects [] g (Ret tt) g'
  | es_cons c p g g' g'' o : effect c g (Ret tt) g' -> effects p g' o g'' -> effects (c :: p) g o g''
  | es_throw c p g g' : effect c g Throw g' -> effects (c :: p) g Throw g'.

  (** Uses of variables that are required to be correct: variables are alive (or not yet, if they are initialised), and no
      variable is move-assigned to itself. *)
  Definition permitted (c : rcmd V) (g : nat -> option V) : Prop :=
    match c with
    | RInit a _ => g a = None
    | RCopyInit a b | RMoveInit a b => g a = None /\ g b <> None
    | RCopyAssign a b => g a <> None /\ g b <> None
    | RMoveAssign a b => a <> b /\ g a <> None /\ g b <> None
    | REnd a => g a <> None
    end.
  Definition addresses (c : rcmd V) : list nat :=
    match c with
    | RInit a _ | REnd a => [a]
    | RCopyInit a b | RMoveInit a b | RCopyAssign a b | RMoveAssign a b => [a; b]
    end.
End Spec.
