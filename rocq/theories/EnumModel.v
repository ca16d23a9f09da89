(** Programs that use the iterators of [enumerate] directly. *)
From Coq Require Import List Arith Bool ZArith.
From Verif Require Import Outcome Num IntervalModel SetModel AlgoModel.
Import ListNotations.

(** Post-increment: the returned iterator and the new state (detail/algorithm.hpp 56-63, 128-134, 201-207). *)
Definition sv_post {T} (it : sv_iter T) : outcome (sv_iter T * sv_iter T) :=
  expects (negb (sv_exhausted it)) ;;; Ret (SvIter (sv_value it) false, SvIter (sv_value it) true).
Definition iv_post {O : ordty} (it : @iv_iter O) : outcome (@iv_iter O * @iv_iter O) := it' <- iv_incr it ;; Ret (it, it').
Definition si_post {E : enum_type} (it : @set_iter E) : outcome (@set_iter E * @set_iter E) := it' <- si_incr it ;; Ret (it, it').
(** Default-constructed iterators (detail/algorithm.hpp 35-36, 99-101, 172-174); [z] is the value of [T{ }]. *)
Definition sv_default {T} (z : T) : sv_iter T := SvIter z true.
Definition iv_default {O : ordty} (z : O) : @iv_iter O := IvIter z z true.
Definition si_default (E : enum_type) : @set_iter E := SetIter set_empty (-1) true.

(** Commands on iterator variables.  Assignment of iterators is memberwise; for [as_regular] members see RegularModel.v. *)
Inductive icmd :=
| IDeref (x : nat)       (** visit( *x ) *)
| IDone (x : nat)        (** visit(x == sentinel{ }) *)
| IIncr (x : nat)        (** ++x *)
| IPost (y x : nat)      (** y = x++ *)
| IDerefPost (x : nat)   (** visit( *x++ ) *)
| ICopy (y x : nat).     (** y = x *)
Section Client.
  Context {I T : Type} (done : I -> bool) (deref_ : I -> outcome T) (incr : I -> outcome I) (post : I -> outcome (I * I)).
  Definition setv {A} (g : nat -> A) (x : nat) (a : A) : nat -> A := fun y => if Nat.eqb y x then a else g y.
  (** The visited values, and how the program ends. *)
  Definition visit (o : T + bool) (r : list (T + bool) * outcome unit) : list (T + bool) * outcome unit := (o :: fst r, snd r).
  Definition oseq {A} (o : outcome A) (k : A -> list (T + bool) * outcome unit) : list (T + bool) * outcome unit :=
    match o with Ret a => k a | FailFast => ([], FailFast) | Trap => ([], Trap) | Throw => ([], Throw) | UB => ([], UB) end.
  Fixpoint client (p : list icmd) (g : nat -> I) : list (T + bool) * outcome unit :=
    match p with
    | [] => ([], Ret tt)
    | IDeref x :: p => oseq (deref_ (g x)) (fun v => visit (inl v) (client p g))
    | IDone x :: p => visit (inr (done (g x))) (client p g)
    | IIncr x :: p => oseq (incr (g x)) (fun i => client p (setv g x i))
    | IPost y x :: p => oseq (post (g x)) (fun r => client p (setv (setv g x (snd r)) y (fst r)))
    | IDerefPost x :: p => oseq (post (g x)) (fun r => oseq (deref_ (fst r)) (fun v => visit (inl v) (client p (setv g x (snd r)))))
    | ICopy y x :: p => client p (setv g y (g x))
    end.
End Client.
