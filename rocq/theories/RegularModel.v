(** [as_regular<T>] (utility.hpp 12-66): an assignable wrapper of a type that can only be copied and moved by construction.

    The store maps an address to the value of the object alive there, if any.  Of [T] are given the copy constructor, which may throw,
    and the move constructor, which may throw and otherwise leaves a value behind in its source; the new object has the value of the source.
    Simplifications: destructors only end the lifetime; constructing an object over one that is alive is reported as undefined
    behaviour, like every other use of storage that does not hold the expected object; the constructors, which are defaulted
    or initialise the member, are those of [T]. *)
From Coq Require Import List Arith.
From Verif Require Import Outcome.
Import ListNotations.

Section Regular.
  Context {V : Type}.
  Definition store := nat -> option V.
  Definition upd (h : store) (a : nat) (o : option V) : store := fun b => if Nat.eqb b a then o else h b.
  (** A command ends with an outcome and a store; after an exception the store is still meaningful. *)
  Definition result : Type := outcome unit * store.
  Definition andthen (r : result) (k : store -> result) : result := match r with (Ret _, h) => k h | _ => r end.

  (** [T(T const&)]: the value of the new object; [T(T&&)]: what is left behind in the source. *)
  Context (copy move : V -> outcome V).

  (** Destructor call, end of the lifetime of a variable. *)
  Definition destroy (a : nat) (h : store) : result :=
    match h a with Some _ => (Ret tt, upd h a None) | None => (UB, h) end.
  (** [new (a) T(b)] for an lvalue [b]. *)
  Definition copy_construct (a b : nat) (h : store) : result :=
    match h a, h b with
    | None, Some v => match copy v with Ret w => (Ret tt, upd h a (Some w)) | FailFast => (FailFast, h) | Trap => (Trap, h) | Throw => (Throw, h) | UB => (UB, h) end
    | _, _ => (UB, h)
    end.
  (** [new (a) T(std::move(b))]. *)
  Definition move_construct (a b : nat) (h : store) : result :=
    match h a, h b with
    | None, Some v => match move v with Ret l => (Ret tt, upd (upd h b (Some l)) a (Some v)) | FailFast => (FailFast, h) | Trap => (Trap, h) | Throw => (Throw, h) | UB => (UB, h) end
    | _, _ => (UB, h)
    end.
  (** [noexcept]: an exception terminates the program. *)
  Definition noexcept_ (r : result) : result := match r with (Throw, h) => (FailFast, h) | _ => r end.
  (** [_construct_inplace] (utility.hpp 18-23). *)
  Definition construct_inplace (this rhs : nat) (h : store) : result :=
    noexcept_ (andthen (destroy this h) (move_construct this rhs)).
  (** A member function is called for an object that is alive. *)
  Definition alive (this : nat) (h : store) : result := match h this with Some _ => (Ret tt, h) | None => (UB, h) end.
  (** Copy assignment (utility.hpp 35-41); [t] is the address of the local variable [copy]. *)
  Definition copy_assign (t this rhs : nat) (h : store) : result :=
    andthen (alive this h) (fun h => andthen (copy_construct t rhs h) (fun h => andthen (construct_inplace this t h) (destroy t))).
  (** Move assignment (utility.hpp 42-47). *)
  Definition move_assign (this rhs : nat) (h : store) : result := noexcept_ (construct_inplace this rhs h).

  (** Programs that work with variables of type [as_regular<T>]. *)
  Inductive rcmd :=
  | RInit (a : nat) (v : V)     (** [as_regular<T> a(v);] (utility.hpp 30-33) *)
  | RCopyInit (a b : nat)       (** [as_regular<T> a = b;] (utility.hpp 27) *)
  | RMoveInit (a b : nat)       (** [as_regular<T> a = std::move(b);] (utility.hpp 28) *)
  | RCopyAssign (a b : nat)     (** [a = b;] *)
  | RMoveAssign (a b : nat)     (** [a = std::move(b);] *)
  | REnd (a : nat).             (** end of the lifetime of [a] *)
  (** [t] is the address of the local variables of the called functions. *)
  Definition rstep (t : nat) (c : rcmd) (h : store) : result :=
    match c with
    | RInit a v => match h a with None => (Ret tt, upd h a (Some v)) | Some _ => (UB, h) end
    | RCopyInit a b => copy_construct a b h
    | RMoveInit a b => move_construct a b h
    | RCopyAssign a b => copy_assign t a b h
    | RMoveAssign a b => move_assign a b h
    | REnd a => destroy a h
    end.
  Fixpoint rrun (t : nat) (p : list rcmd) (h : store) : result :=
    match p with [] => (Ret tt, h) | c :: p => andthen (rstep t c h) (rrun t p) end.
  (** [std::swap(a, b)]; [t'] is the address of its local variable. *)
  Definition swap (t' a b : nat) : list rcmd := [RMoveInit t' a; RMoveAssign a b; RMoveAssign b t'; REnd t'].
End Regular.
Arguments store V : clear implicits.
Arguments result V : clear implicits.
Arguments rcmd V : clear implicits.
