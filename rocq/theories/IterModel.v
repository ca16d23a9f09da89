(** Random-access iterators as a value type of intervals (interval.hpp 853-914), iterator arithmetic (416-453), dereference
    and subscript of iterator intervals (676-700), [prev]/[next] (1377-1388).

    An iterator into a range of [n] elements is a position 0 <= i <= n; position n is the past-the-end iterator.  Forming a
    position outside 0..n is undefined behaviour, and so is dereferencing position n.  Simplification: all iterators refer
    to the same range. *)
From Coq Require Import ZArith Bool List.
From Verif Require Import Outcome Num SetModel IntervalModel IntNum.
Import ListNotations.
Open Scope Z_scope.

Definition in_seq (n z : Z) : bool := (0 <=? z) && (z <=? n).
Definition iter (n : Z) : Type := { z : Z | in_seq n z = true }.
Definition idx {n} (a : iter n) : Z := proj1_sig a.
Definition iter_of (n z : Z) : outcome (iter n) :=
  match bool_dec (in_seq n z) true with
  | left H => Ret (exist _ z H)
  | right _ => UB
  end.
Definition iter_ordty (n : Z) : ordty := {|
  car := iter n;
  o_lt := fun a b => idx a <? idx b;
  o_le := fun a b => idx a <=? idx b;
  o_eq := fun a b => idx a =? idx b;
  o_disc := true;
  o_succ := fun a => iter_of n (idx a + 1);
  o_pred := fun a => iter_of n (idx a - 1)
|}.

Section Iter.
  Context {n w : Z} (dbg : bool).
  (** Scalar iterator arithmetic; [w] is the width of the integer type ([difference_type] for the difference). *)
  Definition iter_add (a : iter_ordty n) (d : int_ordty w) : outcome (iter_ordty n) := iter_of n (idx a + val d).
  Definition iter_add_rev (d : int_ordty w) (a : iter_ordty n) : outcome (iter_ordty n) := iter_of n (val d + idx a).
  Definition iter_sub (a : iter_ordty n) (d : int_ordty w) : outcome (iter_ordty n) := iter_of n (idx a - val d).
  Definition iter_diff (a b : iter_ordty n) : outcome (int_ordty w) := int_of w (idx a - idx b).

  (** [+], [-] on iterator intervals (interval.hpp 416-453). *)
  Definition it_add (a : arg (iter_ordty n)) (d : arg (int_ordty w)) : outcome (ivl (iter_ordty n)) :=
    expects_debug dbg (aassigned a && aassigned d) ;;;
    l <- iter_add (alower a) (alower d) ;; u <- iter_add (aupper a) (aupper d) ;; mk l u.
  Definition it_add_rev (d : arg (int_ordty w)) (a : arg (iter_ordty n)) : outcome (ivl (iter_ordty n)) :=
    expects_debug dbg (aassigned d && aassigned a) ;;;
    l <- iter_add_rev (alower d) (alower a) ;; u <- iter_add_rev (aupper d) (aupper a) ;; mk l u.
  Definition it_sub (a : arg (iter_ordty n)) (d : arg (int_ordty w)) : outcome (ivl (iter_ordty n)) :=
    expects_debug dbg (aassigned a && aassigned d) ;;;
    l <- iter_sub (alower a) (aupper d) ;; u <- iter_sub (aupper a) (alower d) ;; mk l u.
  Definition it_diff (a b : arg (iter_ordty n)) : outcome (ivl (int_ordty w)) :=
    expects_debug dbg (aassigned a && aassigned b) ;;;
    l <- iter_diff (alower a) (aupper b) ;; u <- iter_diff (aupper a) (alower b) ;; mk l u.
  (** [prev], [next] (interval.hpp 1377-1388); no precondition is checked. *)
  Definition it_prev (X : ivl (iter_ordty n)) : outcome (ivl (iter_ordty n)) :=
    l <- @o_pred (iter_ordty n) (lo X) ;; u <- @o_pred (iter_ordty n) (hi X) ;; mk l u.
  Definition it_next (X : ivl (iter_ordty n)) : outcome (ivl (iter_ordty n)) :=
    l <- @o_succ (iter_ordty n) (lo X) ;; u <- @o_succ (iter_ordty n) (hi X) ;; mk l u.
  (** Converting constructor (interval.hpp 875-880). *)
  Definition it_copy (X : ivl (iter_ordty n)) : outcome (ivl (iter_ordty n)) := expects (assigned X) ;;; Ret (Ivl (lo X) (hi X)).
End Iter.

Section Deref.
  Context {N : num} (dbg : bool) (r : list N).
  Let n := Z.of_nat (length r).
  (** [*pos]. *)
  Definition deref_at (a : iter_ordty n) : outcome N :=
    match nth_error r (Z.to_nat (idx a)) with Some v => Ret v | None => UB end.
  (** The loop of [operator *()] (interval.hpp 681-690).  The loop runs at most [n] times; the recursion is bounded by
      [fuel], and running out of fuel, which the proofs exclude, is reported as undefined behaviour. *)
  Fixpoint deref_loop (fuel : nat) (pos e : iter_ordty n) (result : ivl N) : outcome (ivl N) :=
    match fuel with
    | O => UB
    | S fuel' =>
        if o_le pos e then
          v <- deref_at pos ;;
          let result := iassign_value result v in
          pos' <- @o_succ (iter_ordty n) pos ;;
          deref_loop fuel' pos' e result
        else Ret result
    end.
  Definition deref (X : ivl (iter_ordty n)) : outcome (ivl N) := deref_loop (S (length r)) (lo X) (hi X) ivl_default.
  (** [operator []] (interval.hpp 691-700). *)
  Definition subscript (X : ivl (iter_ordty n)) (d : arg (int_ordty 64)) : outcome (ivl N) :=
    Y <- it_add dbg (Iv X) d ;; deref Y.
End Deref.
