(** Algorithms: search in a partitioned range, constraints by a partition, enumeration, subscripts by an interval
    (include/intervals/algorithm.hpp, detail/algorithm.hpp).

    A random-access range is a list; a position in it is an iterator of IterModel.v.  The type gsl::index has 64 bits. *)
From Coq Require Import Bool List Arith ZArith.
From Verif Require Import Outcome SetModel Num IntervalModel IntNum IterModel ConstrainModel.
Import ListNotations.

(** ** Search *)
Section Search.
  Context {A : Type}.
  (** The precondition of [std::ranges::partition_point]: no element that satisfies the predicate follows one that does not. *)
  Fixpoint is_partitioned (l : list bool) : bool :=
    match l with
    | [] => true
    | true :: l' => is_partitioned l'
    | false :: l' => forallb negb l'
    end.
  Definition succeeds (p : A -> outcome bool) (v : A) : bool := match p v with Ret b => b | _ => false end.
  (** The halving loop of [std::ranges::partition_point] (standard library; the loops of the usual implementations agree).
      [fuel] bounds the number of rounds; running out of it, which the proofs exclude, is reported as undefined behaviour. *)
  Fixpoint pp_loop (fuel : nat) (p : A -> outcome bool) (r : list A) (first len : nat) : outcome nat :=
    match fuel with
    | O => UB
    | S fuel' =>
        if Nat.eqb len 0 then Ret first
        else
          let half := Nat.div2 len in
          match nth_error r (first + half) with
          | None => UB
          | Some v =>
              b <- p v ;;
              if b then pp_loop fuel' p r (first + half + 1) (len - half - 1) else pp_loop fuel' p r first half
          end
    end.
  (** [std::ranges::partition_point] with its precondition. *)
  Definition std_partition_point (p : A -> outcome bool) (r : list A) : outcome nat :=
    if is_partitioned (map (succeeds p) r) then pp_loop (S (length r)) p r 0 (length r) else UB.

  Notation size r := (Z.of_nat (length r)).
  (** [partition_point] for a predicate convertible to bool (algorithm.hpp 91-103): the position; the first member of the
      returned pair is the [partitioning], see below. *)
  Definition partition_point_bool (p : A -> outcome bool) (r : list A) : outcome (iter_ordty (size r)) :=
    k <- std_partition_point p r ;; iter_of (size r) (Z.of_nat k).
  (** [partition_point] for a set-valued predicate (algorithm.hpp 104-123). *)
  Definition partition_point_set {O : ordty} (p : A -> outcome (cond O)) (r : list A) : outcome (ivl (iter_ordty (size r))) :=
    k <- std_partition_point (fun v => c <- p v ;; Ret (always (cset c))) r ;;
    l <- std_partition_point (fun v => c <- p v ;; Ret (possibly (cset c))) r ;;
    i <- iter_of (size r) (Z.of_nat k) ;;
    j <- iter_of (size r) (Z.of_nat l) ;;
    @mk (iter_ordty (size r)) i j.
End Search.
Notation size r := (Z.of_nat (length r)).

Section Bounds.
  Context {O : ordty} (dbg : bool).
  (** The predicates made by [lower_bound], [upper_bound] (algorithm.hpp 126-169) with the default comparison std::less<>.
      [value] is [OpId i V] for an lvalue interval, [OpVal (Iv V)] for an rvalue interval (which is copied into the lambda). *)
  Definition lower_pred (value : operand O) (element : O) : outcome (cond O) := c_lt dbg (OpVal (Sc element)) value.
  Definition upper_pred (value : operand O) (element : O) : outcome (cond O) :=
    c <- c_lt dbg value (OpVal (Sc element)) ;; c_not dbg c.
  (** The same for a scalar value. *)
  Definition lower_pred_scalar (value element : O) : outcome bool := Ret (o_lt element value).
  Definition upper_pred_scalar (value element : O) : outcome bool := Ret (negb (o_lt value element)).

  Definition lower_bound (r : list O) (value : operand O) := partition_point_set (lower_pred value) r.
  Definition upper_bound (r : list O) (value : operand O) := partition_point_set (upper_pred value) r.
  Definition lower_bound_scalar (r : list O) (value : O) := partition_point_bool (lower_pred_scalar value) r.
  Definition upper_bound_scalar (r : list O) (value : O) := partition_point_bool (upper_pred_scalar value) r.
End Bounds.

(** ** Constraints by a partition *)
Section Partition.
  Context {O : ordty} {A : Type} (dbg : bool).
  Notation index := (int_ordty 64).
  (** [range[i]]; out of range: undefined behaviour. *)
  Definition elem (r : list A) (i : Z) : outcome A :=
    if (i <? 0)%Z then UB else match nth_error r (Z.to_nat i) with Some v => Ret v | None => UB end.
  (** [partitioning::operator []] for an index or an index interval (detail/algorithm.hpp 276-290): checks, and returns the
      index.  The overloads for iterators (266-275) do not initialise the base class and cannot be instantiated. *)
  Definition part_index (r : list A) (i : arg index) : outcome (arg index) :=
    match i with
    | Sc k => expects_debug dbg ((0 <=? val k)%Z && (val k <=? size r)%Z) ;;; Ret i
    | Iv K => expects (assigned K) ;;; expects_debug dbg ((0 <=? val (lo K))%Z && (val (hi K) <=? size r)%Z) ;;; Ret i
    end.
  (** [constrain(x, preds[i])] for an interval x at address [xid] (algorithm.hpp 56-82).  The checks of identity in
      [constrained_interval::reset] always succeed, because [constrain] returns an interval with the identity of its argument. *)
  Definition part_constrain (xid : nat) (X : ivl O) (p : A -> outcome (cond O)) (r : list A) (i : arg index) : outcome (ivl O) :=
    i <- part_index r i ;;
    match r with
    | [] => Ret X
    | _ =>
        let ilo := val (alower i) in let ihi := val (aupper i) in
        xlo <- (if (0 <? ilo)%Z then e <- elem r (ilo - 1) ;; c <- p e ;; constrain dbg xid X c else Ret X) ;;
        xhi <- (if (ihi <? size r)%Z then e <- elem r ihi ;; c <- p e ;; c <- c_not dbg c ;; constrain dbg xid X c else Ret X) ;;
        expects_debug dbg (o_le (lo xhi) (hi xlo) && o_le (lo xlo) (hi xhi)) ;;;
        mk (omax (lo xlo) (lo xhi)) (omin (hi xlo) (hi xhi))
    end.
  (** [constrain(x, preds[i])] for a scalar x (algorithm.hpp 29-47). *)
  Definition part_constrain_scalar (x : O) (p : A -> outcome bool) (r : list A) (i : arg index) : outcome O :=
    i <- part_index r i ;;
    match r with
    | [] => Ret x
    | _ =>
        let ilo := val (alower i) in let ihi := val (aupper i) in
        (if dbg && (0 <? ilo)%Z then e <- elem r (ilo - 1) ;; b <- p e ;; expects b else Ret tt) ;;;
        (if dbg && (ihi <? size r)%Z then e <- elem r ihi ;; b <- p e ;; expects (negb b) else Ret tt) ;;;
        Ret x
    end.
End Partition.

(** ** Enumeration *)
(** A loop [for (auto it = begin; it != end; ++it) visit( *it )]: the visited values in order.  [None]: not finished after
    [fuel] rounds. *)
Section ForLoop.
  Context {I T : Type} (done : I -> bool) (deref_ : I -> outcome T) (incr : I -> outcome I).
  Fixpoint for_loop (fuel : nat) (it : I) : option (outcome (list T)) :=
    if done it then Some (Ret [])
    else match fuel with
         | O => None
         | S fuel' =>
             match (v <- deref_ it ;; it' <- incr it ;; Ret (v, it')) with
             | Ret (v, it') => match for_loop fuel' it' with Some o => Some (l <- o ;; Ret (v :: l)) | None => None end
             | FailFast => Some FailFast | Trap => Some Trap | Throw => Some Throw | UB => Some UB
             end
         end.
End ForLoop.

(** [single_value_iterator], [single_value_range] (detail/algorithm.hpp 25-87); [enumerate(T)] (algorithm.hpp 172-178). *)
Record sv_iter (T : Type) := SvIter { sv_value : T; sv_exhausted : bool }.
Arguments SvIter {T}. Arguments sv_value {T}. Arguments sv_exhausted {T}.
Definition sv_begin {T} (v : T) : sv_iter T := SvIter v false.
Definition sv_incr {T} (it : sv_iter T) : outcome (sv_iter T) := expects (negb (sv_exhausted it)) ;;; Ret (SvIter (sv_value it) true).
Definition sv_deref {T} (it : sv_iter T) : outcome T := expects (negb (sv_exhausted it)) ;;; Ret (sv_value it).
Definition enumerate_scalar {T} (fuel : nat) (v : T) : option (outcome (list T)) := for_loop sv_exhausted sv_deref sv_incr fuel (sv_begin v).

(** [interval_value_iterator], [interval_value_range] (detail/algorithm.hpp 162-231); [enumerate] for intervals
    (algorithm.hpp 187-195). *)
Section EnumInterval.
  Context {O : ordty}.
  Record iv_iter := IvIter { iv_pos : O; iv_upper : O; iv_exhausted : bool }.
  Definition iv_begin (X : ivl O) : iv_iter := IvIter (lo X) (hi X) false.
  Definition iv_incr (it : iv_iter) : outcome iv_iter :=
    expects (negb (iv_exhausted it)) ;;;
    if o_eq (iv_pos it) (iv_upper it) then Ret (IvIter (iv_pos it) (iv_upper it) true)
    else p <- o_succ (iv_pos it) ;; Ret (IvIter p (iv_upper it) false).
  Definition iv_deref (it : iv_iter) : outcome O := expects (negb (iv_exhausted it)) ;;; Ret (iv_pos it).
  Definition enumerate_interval (fuel : nat) (X : ivl O) : option (outcome (list O)) :=
    if assigned X then for_loop iv_exhausted iv_deref iv_incr fuel (iv_begin X) else Some FailFast.
End EnumInterval.

(** [set_value_iterator], [set_value_range] (detail/algorithm.hpp 89-160); [enumerate] for sets (algorithm.hpp 179-186). *)
Section EnumSet.
  Context {E : enum_type}.
  Record set_iter := SetIter { si_value : vset E; si_index : Z; si_exhausted : bool }.
  (** The loop [while (++index != ssize(values))]; at most [num_values] rounds. *)
  Fixpoint si_loop (fuel : nat) (s : vset E) (i : Z) : outcome set_iter :=
    match fuel with
    | O => UB
    | S fuel' =>
        let i := (i + 1)%Z in
        if (i =? Z.of_nat (num_values E))%Z then Ret (SetIter s i true)
        else b <- contains_index s i ;; if b then Ret (SetIter s i false) else si_loop fuel' s i
    end.
  Definition si_incr (it : set_iter) : outcome set_iter :=
    expects (negb (si_exhausted it)) ;;; si_loop (S (num_values E)) (si_value it) (si_index it).
  Definition si_deref (it : set_iter) : outcome E :=
    expects (negb (si_exhausted it)) ;;; elem (ev_values E) (si_index it).
  Definition si_begin (s : vset E) : outcome set_iter := si_incr (SetIter s (-1) false).
  Definition enumerate_set (fuel : nat) (s : vset E) : option (outcome (list E)) :=
    if set_assigned s then
      match si_begin s with
      | Ret it => for_loop si_exhausted si_deref si_incr fuel it
      | FailFast => Some FailFast | Trap => Some Trap | Throw => Some Throw | UB => Some UB
      end
    else Some FailFast.
End EnumSet.

(** ** Subscripts *)
Section At.
  Notation index := (int_ordty 64).
  (** [at(range, index)] (algorithm.hpp 198-205). *)
  Definition at_index {A : Type} (r : list A) (i : index) : outcome A :=
    expects ((0 <=? val i)%Z && (val i <? size r)%Z) ;;; elem r (val i).
  (** The loop of [at] for an index interval (algorithm.hpp 206-221): [assign result v] is [assign_partial(result, v)]. *)
  Section Loop.
    Context {A S : Type} (assign : S -> A -> outcome S).
    Fixpoint at_loop (fuel : nat) (r : list A) (i : index) (upper : index) (result : S) : outcome S :=
      match fuel with
      | O => UB
      | Datatypes.S fuel' =>
          if (val i <=? val upper)%Z then
            v <- elem r (val i) ;; result <- assign result v ;; i <- int_of 64 (val i + 1) ;; at_loop fuel' r i upper result
          else Ret result
      end.
    Definition at_interval (init : S) (r : list A) (I : ivl index) : outcome S :=
      expects (assigned I) ;;;
      expects ((0 <=? val (lo I))%Z && (val (hi I) <? size r)%Z) ;;;
      at_loop (Datatypes.S (length r)) r (lo I) (hi I) init.
  End Loop.
  (** Elements that are numbers or intervals: the result is an interval; a number is converted to an interval. *)
  Definition at_assign {N : num} (result : ivl N) (v : arg N) : outcome (ivl N) :=
    free_assign_partial result (match v with Sc x => ivl_of x | Iv X => X end).
  Definition at_numbers {N : num} (r : list (arg N)) (I : ivl index) : outcome (ivl N) := at_interval at_assign ivl_default r I.
  (** Elements that are sets; a value of a reflected type is converted to a set. *)
  Definition at_sets {E : enum_type} (dbg : bool) (r : list (vset E)) (I : ivl index) : outcome (vset E) :=
    at_interval (sfree_assign_partial dbg) set_empty r I.
End At.
