(** Properties of narrowing conversions between floating-point and integer value types (C62). *)
From Coq Require Import Bool ZArith Reals Lia.
From Flocq Require Import Core BinarySingleNaN.
From Verif Require Import Outcome SetModel Num NumLaws IntervalModel IvlSpec IntNum FloatNum FloatProofs ValueTypes IvlWrap Refute
  MixedModel MixedArithModel AlgoProofs4 FloatIntModel FloatIntSpec FloatIntProofs.
Open Scope Z_scope.

(** ** C62 *)
(** Floating-point to integer: both end points are integers of the target type. *)
Theorem C62_to_int : forall (prec emax w : Z) (Hp : Prec_gt_0 prec) (He : Prec_lt_emax prec emax) (Hw : 2 <= w) (X : ivl (float_num prec emax Hp He)) (a b : int w),
  assigned X = true -> is_integer (lo X) (val a) -> is_integer (hi X) (val b) ->
  inarrow_fi Hp He Hw X = Ret (Ivl a b : ivl (int_num w Hw)) /\ inarrow_failfast_fi Hp He Hw X = Ret (Ivl a b : ivl (int_num w Hw)) /\ inarrow_cast_fi Hp He Hw X = Ret (Ivl a b : ivl (int_num w Hw)).
Proof. exact (fun prec emax w Hp He Hw X a b A => proj1 (fi_spec Hp He Hw X A) a b). Qed.
Print Assumptions C62_to_int.
(** An end point is not an integer of the target type. *)
Theorem C62_to_int_error_partial : forall (prec emax w : Z) (Hp : Prec_gt_0 prec) (He : Prec_lt_emax prec emax) (Hw : 2 <= w) (X : ivl (float_num prec emax Hp He)),
  assigned X = true -> part_fits w (lo X) -> part_fits w (hi X) -> ~ (fits_int w (lo X) /\ fits_int w (hi X)) ->
  inarrow_fi Hp He Hw X = Throw /\ inarrow_failfast_fi Hp He Hw X = FailFast.
Proof. exact (fun prec emax w Hp He Hw X A => proj2 (fi_spec Hp He Hw X A)). Qed.
Print Assumptions C62_to_int_error_partial.
(** Integer to floating-point. *)
Theorem C62_to_float : forall (prec emax w : Z) (Hp : Prec_gt_0 prec) (He : Prec_lt_emax prec emax) (Hw : 2 <= w) (Y : ivl (int_num w Hw)),
  assigned Y = true -> fits_float prec emax (lo Y) -> fits_float prec emax (hi Y) ->
  exists X, inarrow_if Hp He Hw Y = Ret X /\ inarrow_failfast_if Hp He Hw Y = Ret X /\ inarrow_cast_if Hp He Hw Y = Ret X
    /\ is_integer (lo X) (val (lo Y)) /\ is_integer (hi X) (val (hi Y)).
Proof. exact (fun prec emax w Hp He Hw Y A => proj1 (if_spec Hp He Hw Y A)). Qed.
Print Assumptions C62_to_float.
Theorem C62_to_float_error_partial : forall (prec emax w : Z) (Hp : Prec_gt_0 prec) (He : Prec_lt_emax prec emax) (Hw : 2 <= w) (Y : ivl (int_num w Hw)),
  assigned Y = true -> part_fits w (int_to_float w prec emax Hp He (lo Y)) -> part_fits w (int_to_float w prec emax Hp He (hi Y)) ->
  ~ (fits_float prec emax (lo Y) /\ fits_float prec emax (hi Y)) -> inarrow_if Hp He Hw Y = Throw /\ inarrow_failfast_if Hp He Hw Y = FailFast.
Proof. exact (fun prec emax w Hp He Hw Y A => proj2 (if_spec Hp He Hw Y A)). Qed.
Print Assumptions C62_to_float_error_partial.
Theorem C62_lossless : forall (prec emax w : Z) (Hp : Prec_gt_0 prec) (He : Prec_lt_emax prec emax) (Hw : 2 <= w) (Y : ivl (int_num w Hw)),
  assigned Y = true -> w - 1 <= prec ->
  exists X, inarrow_if Hp He Hw Y = Ret X /\ inarrow_failfast_if Hp He Hw Y = Ret X /\ inarrow_cast_if Hp He Hw Y = Ret X
    /\ is_integer (lo X) (val (lo Y)) /\ is_integer (hi X) (val (hi Y)).
Proof. exact (fun prec emax w Hp He Hw => if_lossless Hp He Hw). Qed.
Print Assumptions C62_lossless.
(** Missing in C62_to_int_error_partial and C62_to_float_error_partial: values out of the range of the integer type are not
    detected, the conversion (to the integer type or back) is undefined behaviour: narrow<int>(interval{ 0., 1e10 }),
    narrow<double>(interval<long>{ 0, LONG_MAX }). *)
Theorem C62_error_refuted : (exists X : ivl float64, proper X /\ ~ fits_int 32 (hi X : float64) /\ inarrow_fi prec_gt_0_53 prec_lt_emax_64 le_2_32 X = UB)
  /\ (exists Y : ivl int64, proper Y /\ ~ fits_float 53 1024 (hi Y : int64) /\ inarrow_if prec_gt_0_53 prec_lt_emax_64 le_2_64 Y = UB).
Proof. exact narrow_refuted. Qed.
Print Assumptions C62_error_refuted.
Theorem C62_undefined : forall (prec emax w : Z) (Hp : Prec_gt_0 prec) (He : Prec_lt_emax prec emax) (Hw : 2 <= w),
  (forall X : ivl (float_num prec emax Hp He), assigned X = true -> ~ part_fits w (lo X) \/ (fits_int w (lo X) /\ ~ part_fits w (hi X)) ->
     inarrow_fi Hp He Hw X = UB /\ inarrow_failfast_fi Hp He Hw X = UB /\ inarrow_cast_fi Hp He Hw X = UB)
  /\ (forall Y : ivl (int_num w Hw), assigned Y = true -> ~ part_fits w (int_to_float w prec emax Hp He (lo Y)) \/ (fits_float prec emax (lo Y) /\ ~ part_fits w (int_to_float w prec emax Hp He (hi Y))) ->
     inarrow_if Hp He Hw Y = UB /\ inarrow_failfast_if Hp He Hw Y = UB).
Proof. exact (fun prec emax w Hp He Hw => conj (fi_undefined Hp He Hw) (if_undefined Hp He Hw)). Qed.
Print Assumptions C62_undefined.
(** [narrow_cast] truncates or rounds all elements; rounding as in C57_rounding_int. *)
Theorem C62_cast_to_int : forall (prec emax w : Z) (Hp : Prec_gt_0 prec) (He : Prec_lt_emax prec emax) (Hw : 2 <= w) (X : ivl (float_num prec emax Hp He)),
  proper X -> part_fits w (lo X) -> part_fits w (hi X) ->
  exists Z : ivl (int_num w Hw), inarrow_cast_fi Hp He Hw X = Ret Z
    /\ is_hull (fun n : int_num w Hw => exists v : float_num prec emax Hp He, el X v /\ val n = Ztrunc (B2R (v : binary_float prec emax))) Z.
Proof. exact (fun prec emax w Hp He Hw => fi_cast Hp He Hw). Qed.
Print Assumptions C62_cast_to_int.
Theorem C62_cast_to_float : forall (prec emax w : Z) (Hp : Prec_gt_0 prec) (He : Prec_lt_emax prec emax) (Hw : 2 <= w) (Y : ivl (int_num w Hw)),
  proper Y -> exists X, inarrow_cast_if Hp He Hw Y = Ret X
    /\ is_hull (fun v : float_num prec emax Hp He => exists n : int_num w Hw, el Y n /\ v = int_to_float w prec emax Hp He n) X.
Proof. exact (fun prec emax w Hp He Hw => if_cast Hp He Hw). Qed.
Print Assumptions C62_cast_to_float.
Theorem C62_unassigned : forall (prec emax w : Z) (Hp : Prec_gt_0 prec) (He : Prec_lt_emax prec emax) (Hw : 2 <= w) (X : ivl (float_num prec emax Hp He)) (Y : ivl (int_num w Hw)),
  assigned X = false -> assigned Y = false ->
  inarrow_fi Hp He Hw X = Ret ivl_default /\ inarrow_failfast_fi Hp He Hw X = Ret ivl_default /\ inarrow_cast_fi Hp He Hw X = Ret ivl_default
  /\ inarrow_if Hp He Hw Y = Ret ivl_default /\ inarrow_failfast_if Hp He Hw Y = Ret ivl_default /\ inarrow_cast_if Hp He Hw Y = Ret ivl_default.
Proof. exact (fun prec emax w Hp He Hw => narrow_unassigned Hp He Hw). Qed.
Print Assumptions C62_unassigned.
(** The example of the README (680-699): [0, 0.5]; also [-3, 7] and 2^53 + 1. *)
Example C62_example : let X := Ivl (f64 0 0) (f64 1 (-1)) : ivl float64 in let Y := Ivl (f64 (-3) 0) (f64 7 0) : ivl float64 in let W := Ivl (i64 0) (i64 9007199254740993) : ivl int64 in
  proper X /\ part_fits 32 (lo X : float64) /\ part_fits 32 (hi X : float64)
  /\ inarrow_fi prec_gt_0_53 prec_lt_emax_64 le_2_32 X = Throw /\ inarrow_failfast_fi prec_gt_0_53 prec_lt_emax_64 le_2_32 X = FailFast
  /\ (exists Z, inarrow_cast_fi prec_gt_0_53 prec_lt_emax_64 le_2_32 X = Ret Z /\ matches_ivl Z (Ivl (i32 0) (i32 0) : ivl int32) = true)
  /\ (exists Z, inarrow_fi prec_gt_0_53 prec_lt_emax_64 le_2_32 Y = Ret Z /\ matches_ivl Z (Ivl (i32 (-3)) (i32 7) : ivl int32) = true)
  /\ inarrow_if prec_gt_0_53 prec_lt_emax_64 le_2_64 W = Throw
  /\ (exists Z, inarrow_cast_if prec_gt_0_53 prec_lt_emax_64 le_2_64 W = Ret Z /\ matches_ivl Z (Ivl (f64 0 0) (f64 9007199254740992 0) : ivl float64) = true).
Proof. exact narrow_example. Qed.
