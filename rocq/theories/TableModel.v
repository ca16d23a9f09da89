(** [lower_bound], [upper_bound] in a range whose elements have another value type than the interval (algorithm.hpp 126-169
    with [has_ordering_relation_with]), and [constrain] with the resulting partitioning (algorithm.hpp 56-82): a range of
    integers searched for a floating-point interval, or a range of a narrower type of the same kind.  The comparison function
    object is std::less<>.  [conv] is the usual arithmetic conversion of the elements, as in MixedModel.v. *)
From Coq Require Import Bool List ZArith.
From Verif Require Import Outcome SetModel Num IntervalModel IntNum IterModel ConstrainModel AlgoModel CondSpec MixedModel.

Section Table.
  Context {O I : ordty} (conv : I -> O) (dbg : bool).
  Definition lower_bound_table (r : list I) (value : operand O) : outcome (ivl (iter_ordty (size r))) :=
    partition_point_set (fun e => lower_pred dbg value (conv e)) r.
  Definition upper_bound_table (r : list I) (value : operand O) : outcome (ivl (iter_ordty (size r))) :=
    partition_point_set (fun e => upper_pred dbg value (conv e)) r.
  (** [constrain(x, preds[i])] for an interval [x] with the value [X]; [low], [high] constrain [x] by the predicate for the
      element before the index, and by its negation for the element at the index (algorithm.hpp 61-81). *)
  Definition table_constrain (low high : I -> outcome (ivl O)) (X : ivl O) (r : list I) (i : arg (int_ordty 64)) : outcome (ivl O) :=
    i <- part_index dbg r i ;;
    match r with
    | nil => Ret X
    | _ =>
        let ilo := val (alower i) in let ihi := val (aupper i) in
        xlo <- (if (0 <? ilo)%Z then e <- elem r (ilo - 1) ;; low e else Ret X) ;;
        xhi <- (if (ihi <? size r)%Z then e <- elem r ihi ;; high e else Ret X) ;;
        expects_debug dbg (o_le (lo xhi) (hi xlo) && o_le (lo xlo) (hi xhi)) ;;;
        mk (omax (lo xlo) (lo xhi)) (omin (hi xlo) (hi xhi))
    end.
  (** The partitioning returned by [lower_bound(r, x)]: element < x, and x <= element; only the former steps from the
      element to the next number (detail/interval.hpp 531). *)
  Definition lower_table_constrain (X : ivl O) (r : list I) (i : arg (int_ordty 64)) : outcome (ivl O) :=
    table_constrain (fun e => mixed_constrain conv dbg RLt false X (Sc e))
      (fun e => c <- lower_pred dbg (OpId 0 X) (conv e) ;; c <- c_not dbg c ;; constrain dbg 0 X c) X r i.
  (** The partitioning returned by [upper_bound(r, x)]: element <= x, and x < element.  Simplification: the latter is the
      double negation of the comparison, which has the same truth values and operands. *)
  Definition upper_table_constrain (X : ivl O) (r : list I) (i : arg (int_ordty 64)) : outcome (ivl O) :=
    table_constrain (fun e => c <- upper_pred dbg (OpId 0 X) (conv e) ;; constrain dbg 0 X c)
      (fun e => mixed_constrain conv dbg RLt true X (Sc e)) X r i.
End Table.
