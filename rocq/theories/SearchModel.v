(** [lower_bound], [upper_bound] with a comparison given by the caller (algorithm.hpp 126-169): one of the transparent function
    objects of the standard library.  The default is std::less<>, which AlgoModel.v treats directly. *)
From Coq Require Import Bool List ZArith.
From Verif Require Import Outcome SetModel Num IntervalModel IterModel ConstrainModel AlgoModel.

(** std::less<>, std::less_equal<>, std::greater<>, std::greater_equal<>. *)
Inductive comparator := Less | LessEq | Greater | GreaterEq.

Section Search.
  Context {O : ordty} (dbg : bool).
  (** [comp(l, r)] for operands one of which is an interval: the function objects forward their arguments to the operators,
      so that an interval keeps its identity (interval.hpp 108-186). *)
  Definition comp_cond (c : comparator) (l r : operand O) : outcome (cond O) :=
    match c with Less => c_lt dbg l r | LessEq => c_le dbg l r | Greater => c_gt dbg l r | GreaterEq => c_ge dbg l r end.
  (** [comp(l, r)] for scalars. *)
  Definition comp_bool (c : comparator) (l r : O) : bool :=
    match c with Less => o_lt l r | LessEq => o_le l r | Greater => o_lt r l | GreaterEq => o_le r l end.
  (** The predicates made by [lower_bound] (algorithm.hpp 126-147) and [upper_bound] (148-169). *)
  Definition lower_pred_by (c : comparator) (value : operand O) (element : O) : outcome (cond O) :=
    comp_cond c (OpVal (Sc element)) value.
  Definition upper_pred_by (c : comparator) (value : operand O) (element : O) : outcome (cond O) :=
    x <- comp_cond c value (OpVal (Sc element)) ;; c_not dbg x.
  Definition lower_pred_scalar_by (c : comparator) (value element : O) : outcome bool := Ret (comp_bool c element value).
  Definition upper_pred_scalar_by (c : comparator) (value element : O) : outcome bool := Ret (negb (comp_bool c value element)).
  Definition lower_bound_by (c : comparator) (r : list O) (value : operand O) := partition_point_set (lower_pred_by c value) r.
  Definition upper_bound_by (c : comparator) (r : list O) (value : operand O) := partition_point_set (upper_pred_by c value) r.
  Definition lower_bound_scalar_by (c : comparator) (r : list O) (value : O) := partition_point_bool (lower_pred_scalar_by c value) r.
  Definition upper_bound_scalar_by (c : comparator) (r : list O) (value : O) := partition_point_bool (upper_pred_scalar_by c value) r.
End Search.
