(** [merge] and [intersect] of intervals of different value types (interval.hpp 1553-1568; detail/interval.hpp 679-687). *)
From Coq Require Import List.
From Verif Require Import Outcome Num IntervalModel MixedArithModel.
Import ListNotations.

Section MixedMerge.
  Context {T : num}.

  (** An argument of one of the functions: an interval of the common value type [T], or one of another value type [U] with the
      conversion [c] of numbers to [T]. *)
  Inductive operand_to := Same (Y : ivl T) | From (U : num) (c : U -> T) (Y : ivl U).
  (** [std::common_type_t<T0, Ts...>(arg0)] (interval.hpp 1557, 1565) and [X(u)] (detail/interval.hpp 683): a copy for the common
      type (a constructor argument of type [constrained_interval], which would reset an unassigned value, is not modelled), the
      converting constructor (interval.hpp 740-748, 810-818) for the others. *)
  Definition to_common (o : operand_to) : outcome (ivl T) :=
    match o with Same Y => Ret Y | From U c Y => iconvert (fun a => Ret (c a)) Y end.

  (** [merge] (interval.hpp 1553-1560).  [assign] takes no interval of another type, so the call only compiles if all arguments
      but the first have the common type. *)
  Definition mixed_merge (o : operand_to) (l : list (ivl T)) : outcome (ivl T) :=
    X <- to_common o ;; merge X l.
  (** [intersect] (interval.hpp 1561-1568). *)
  Fixpoint mixed_intersect_from (X : ivl T) (l : list operand_to) : outcome (ivl T) :=
    match l with
    | [] => Ret X
    | o :: l' => Y <- to_common o ;; X' <- narrow_interval X Y ;; mixed_intersect_from X' l'
    end.
  Definition mixed_intersect (o : operand_to) (l : list operand_to) : outcome (ivl T) :=
    X <- to_common o ;; mixed_intersect_from X l.
End MixedMerge.
Arguments operand_to T : clear implicits.
