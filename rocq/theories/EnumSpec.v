(** The same programs with lists of the values still to be visited instead of iterators. *)
From Coq Require Import List Arith Bool.
From Verif Require Import Outcome EnumModel.
Import ListNotations.

Section Spec.
  Context {T : Type}.
  Definition assign_list (g : nat -> list T) (x : nat) (l : list T) : nat -> list T := fun y => if Nat.eqb y x then l else g y.
  (** Using an iterator that has no value left fails fast. *)
  Fixpoint list_client (p : list icmd) (g : nat -> list T) : list (T + bool) * outcome unit :=
    match p with
    | [] => ([], Ret tt)
    | IDeref x :: p => match g x with [] => ([], FailFast) | v :: _ => let r := list_client p g in (inl v :: fst r, snd r) end
    | IDone x :: p => let r := list_client p g in (inr match g x with [] => true | _ => false end :: fst r, snd r)
    | IIncr x :: p => match g x with [] => ([], FailFast) | _ :: l => list_client p (assign_list g x l) end
    | IPost y x :: p => match g x with [] => ([], FailFast) | v :: l => list_client p (assign_list (assign_list g x l) y (v :: l)) end
    | IDerefPost x :: p => match g x with [] => ([], FailFast) | v :: l => let r := list_client p (assign_list g x l) in (inl v :: fst r, snd r) end
    | ICopy y x :: p => list_client p (assign_list g y (g x))
    end.
  (** Initially, variable 0 is [begin()], the others are default-constructed. *)
  Definition initially (l : list T) : nat -> list T := fun x => match x with O => l | S _ => [] end.
End Spec.
