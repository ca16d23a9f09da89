(** Properties of [constrain] with an operand of a narrower type of the same kind (C61). *)
From Coq Require Import Bool ZArith.
From Flocq Require Import Core BinarySingleNaN.
From Verif Require Import Outcome SetModel Spec Num NumLaws IntervalModel IvlSpec IntNum FloatNum FloatProofs ValueTypes IvlWrap Refute
  ConstrainModel CondSpec MixedModel MixedArithModel AlgoProofs4 SearchModel SearchSpec WidenSpec WidenProofs.

(** ** C61 *)
Theorem C61_sound_partial : forall (I T : num) (c : I -> T), widens I T c -> forall (dbg : bool) (R : rel) (left : bool) (X : ivl T) (y : arg I) (a : T) (n : I),
  el X a -> ael y n -> steps R left y -> mixed_holds c R left a n = true ->
  exists Z, mixed_constrain c dbg R left X y = Ret Z /\ el Z a.
Proof. exact (fun I T c W dbg => W_sound W dbg). Qed.
Print Assumptions C61_sound_partial.
(** Missing in C61_sound_partial: [x < y] and [x > y] step from the end point of y in the narrower type. *)
Theorem C61_sound_refuted : exists (X : ivl int64) (n : int32) (a : int64), el X a /\ o_lt a (int_to_long n) = true
  /\ mixed_constrain int_to_long true RLt true X (Sc n) = UB.
Proof. exact widen_ub. Qed.
Print Assumptions C61_sound_refuted.
Theorem C61_tight : forall (I T : num) (c : I -> T), widens I T c -> forall (dbg : bool) (R : rel) (left : bool) (X : ivl T) (y : arg I) (Z : ivl T),
  proper X -> aproper y -> R <> RNe -> (R = REq -> o_disc T = true) -> mixed_constrain c dbg R left X y = Ret Z ->
  forall a, el Z a <-> el X a /\ exists n, ael y n /\ mixed_holds c (relaxed T R) left a n = true.
Proof. exact (fun I T c W dbg => W_tight W dbg). Qed.
Print Assumptions C61_tight.
Theorem C61_not_equal : forall (I T : num) (c : I -> T), widens I T c -> forall (dbg left : bool) (X : ivl T) (y : arg I) (Z : ivl T),
  proper X -> aproper y -> o_disc T = true -> mixed_constrain c dbg RNe left X y = Ret Z ->
  is_hull (fun a => el X a /\ exists n, ael y n /\ mixed_holds c RNe left a n = true) Z.
Proof. exact (fun I T c W dbg => W_ne W dbg). Qed.
Print Assumptions C61_not_equal.
Theorem C61_failfast : forall (I T : num) (c : I -> T), widens I T c -> forall (dbg : bool) (R : rel) (left : bool) (X : ivl T) (y : arg I),
  proper X -> aproper y -> steps R left y -> (R = REq -> o_disc T = true) -> (forall a n, el X a -> ael y n -> mixed_holds c R left a n = false) ->
  mixed_constrain c dbg R left X y = FailFast.
Proof. exact (fun I T c W dbg => W_fails W dbg). Qed.
Print Assumptions C61_failfast.
(** x = [-2^40, 0] of type interval<long> and x < y with y = [-7, -3] of type interval<int>; x = [0, 1] of type
    interval<double> and x > 0.5f; x = [0, 3] and x != 3. *)
Example C61_example : widens int32 int64 int_to_long /\ widens float32 float64 float_to_double
  /\ steps RLt true (Iv (Ivl (i32 (-7)) (i32 (-3)))) /\ steps RGt true (Sc (double_to_float (f64 1 (-1))))
  /\ (exists Z, mixed_constrain int_to_long true RLt true Xlong (Iv (Ivl (i32 (-7)) (i32 (-3)))) = Ret Z /\ o_eq (lo Z) (lo Xlong) && o_eq (hi Z) (i64 (-4)) = true)
  /\ (exists Z, mixed_constrain float_to_double true RGt true (Ivl (f64 0 0) (f64 1 0) : ivl float64) (Sc (double_to_float (f64 1 (-1)))) = Ret Z /\ o_eq (lo Z) (f64 1 (-1)) && o_eq (hi Z) (f64 1 0) = true)
  /\ (exists Z, mixed_constrain int_to_long true RNe true (Ivl (i64 0) (i64 3)) (Sc (i32 3)) = Ret Z /\ o_eq (lo Z) (i64 0) && o_eq (hi Z) (i64 2) = true)
  /\ mixed_constrain int_to_long true RGt true Xlong (Sc (i32 0)) = FailFast.
Proof.
  split; [exact int_to_long_widens|]. split; [exact float_to_double_widens|]. split; [eexists; reflexivity|]. split; [eexists; reflexivity|].
  split; [apply ret_witness; vm_compute; reflexivity|]. split; [apply ret_witness; vm_compute; reflexivity|]. split; [apply ret_witness; vm_compute; reflexivity|reflexivity].
Qed.
