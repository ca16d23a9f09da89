(** Overloads for plain numbers against the overloads for intervals (C74). *)
From Coq Require Import Bool List ZArith.
From Verif Require Import Outcome SetModel Spec Num NumLaws IntervalModel IvlSpec IntNum FloatNum ValueTypes IvlWrap FloatIntProofs ScalarModel ScalarProofs ScalarProofs2.
Import ListNotations.

(** ** C74 *)
Theorem C74_sgn : forall N, value_type N -> forall dbg (u : N), ok u ->
  exists t, ssgn dbg u = Ret t /\ has_sign u t /\ forall X s, el X u -> isgn dbg X = Ret s -> member s t.
Proof. exact scalar_sgn. Qed.
Print Assumptions C74_sgn.
(** A NaN: a debug build fails fast, a release build answers "zero"; the set of signs of the NaN interval is empty. *)
Theorem C74_sgn_nan_refuted : forall N, value_type N -> forall u : N, nan u ->
  ssgn true u = FailFast /\ ssgn false u = Ret zero_sign /\ forall dbg, exists s, isgn dbg (ivl_of u) = Ret s /\ forall t, ~ member s t.
Proof. exact scalar_sgn_nan. Qed.
Print Assumptions C74_sgn_nan_refuted.

(** Missing compared with C74: not the product of an infinity and the sign "zero". *)
Theorem C74_sign_product_partial : forall N, value_type N -> forall (t : sign) (u : N), ok u -> ~ (t = zero_sign /\ infinite u) ->
  scalar_mul_sign u t = sign_mul_scalar t u
  /\ (forall z, sign_times t u = Ret z -> exists p, sign_mul_scalar t u = Ret p /\ o_eq p z = true)
  /\ (forall p, sign_mul_scalar t u = Ret p -> exists z, sign_times t u = Ret z).
Proof. exact (fun N H => sign_product_exact (value_type_laws N H)). Qed.
Print Assumptions C74_sign_product_partial.
Theorem C74_sign_product_enclosed_partial : forall N, value_type N -> forall dbg (s : sset) (X Z : ivl N) t u, el X u -> member s t -> ~ (t = zero_sign /\ infinite u) ->
  signs_mul_ivl dbg s X = Ret Z -> exists p, scalar_mul_sign u t = Ret p /\ el Z p.
Proof. exact (fun N H => sign_product_in (value_type_laws N H)). Qed.
Print Assumptions C74_sign_product_enclosed_partial.
(** An infinity times the sign "zero" is NaN; the interval of all numbers times the set of the sign "zero" is [0, 0]. *)
Theorem C74_sign_product_refuted : exists (s : sset) (X Z : ivl float64) (t : sign) (u p : float64), el X u /\ member s t
  /\ signs_mul_ivl true s X = Ret Z /\ scalar_mul_sign u t = Ret p /\ ~ el Z p.
Proof. exact sign_product_infinite. Qed.
Print Assumptions C74_sign_product_refuted.
(** A single sign times an interval: as the set of that sign (C07_signs_times_interval), except that an interval with an infinite element times "zero" is NaN. *)
Theorem C74_sign_times_interval : forall N, value_type N -> forall dbg (t : sign) (X : ivl N), proper X ->
  forall F, F = sign_mul_ivl dbg t X \/ F = ivl_mul_sign dbg X t ->
  ((t = negative_sign -> defined1 n_neg X) <-> exists Z, F = Ret Z)
  /\ forall Z, F = Ret Z ->
     ((t = zero_sign /\ exists u, el X u /\ infinite u) -> nan_ivl Z)
     /\ (~ (t = zero_sign /\ exists u, el X u /\ infinite u) -> is_hull (fun z => exists u, el X u /\ sign_times t u = Ret z) Z).
Proof. exact sign_times_ivl. Qed.
Print Assumptions C74_sign_times_interval.

Theorem C74_assign : forall N, value_type N -> forall (X Y : ivl N) x y, ok (lo X) -> ok (hi X) -> el Y y ->
  (forall Z, free_assign X Y = Ret Z -> el Z (scalar_assign x y))
  /\ (forall Z, free_assign_partial X Y = Ret Z -> el Z (scalar_assign_partial x y))
  /\ el (free_reset X Y) (scalar_reset x y).
Proof. exact (fun N H => scalar_assign_in (nl_ord N (value_type_laws N H))). Qed.
Print Assumptions C74_assign.
Theorem C74_merge : forall N, value_type N -> forall (X : ivl N) l Z x xs, proper X -> Forall proper l -> el X x ->
  merge X l = Ret Z -> el Z (scalar_merge x xs).
Proof. exact (fun N H => scalar_merge_in (nl_ord N (value_type_laws N H))). Qed.
Print Assumptions C74_merge.
(** Missing compared with C74: the scalar must lie in every argument. *)
Theorem C74_intersect_partial : forall N, value_type N -> forall (X : ivl N) l Z x xs, proper X -> Forall proper l -> (exists v, forall Y, In Y (X :: l) -> el Y v) ->
  intersect X l = Ret Z -> (el Z (scalar_intersect x xs) <-> forall Y, In Y (X :: l) -> el Y x).
Proof. exact (fun N H => scalar_intersect_in (nl_ord N (value_type_laws N H))). Qed.
Print Assumptions C74_intersect_partial.
(** intersect(0, 3) is 0; the intersection of [0, 2] and [1, 3] does not contain it. *)
Theorem C74_intersect_refuted : exists (X Y Z : ivl int32) (x y : int32), el X x /\ el Y y /\ intersect X [Y] = Ret Z /\ ~ el Z (scalar_intersect x [y]).
Proof. exact scalar_intersect_other. Qed.
Print Assumptions C74_intersect_refuted.

Example C74_example : ok (f64 (-3) 0) /\ ssgn true (f64 (-3) 0) = Ret negative_sign /\ ssgn false (n_nan : float64) = Ret zero_sign /\ nan (n_nan : float64)
  /\ (exists p, scalar_mul_sign (f64 3 0) negative_sign = Ret p /\ o_eq p (f64 (-3) 0) = true)
  /\ sign_mul_scalar negative_sign (i32 (-2147483648)) = UB /\ (exists p, sign_mul_scalar zero_sign (i32 (-2147483648)) = Ret p /\ o_eq p (i32 0) = true)
  /\ (exists Z, sign_mul_ivl true negative_sign (Ivl (f64 1 0) (f64 2 0) : ivl float64) = Ret Z /\ matches_ivl Z (Ivl (f64 (-2) 0) (f64 (-1) 0) : ivl float64) = true)
  /\ (exists Z, merge (Ivl (i32 1) (i32 2)) [Ivl (i32 4) (i32 5)] = Ret Z /\ matches_ivl Z (Ivl (i32 1) (i32 5)) = true) /\ el (Ivl (i32 1) (i32 2)) (scalar_merge (i32 2) [i32 4])
  /\ (exists Z, intersect (Ivl (i32 1) (i32 4)) [Ivl (i32 2) (i32 5)] = Ret Z /\ matches_ivl Z (Ivl (i32 2) (i32 4)) = true) /\ el (Ivl (i32 2) (i32 5)) (scalar_intersect (i32 3) [i32 3])
  /\ (exists Z, free_assign (ivl_default : ivl int32) (Ivl (i32 1) (i32 2)) = Ret Z /\ matches_ivl Z (Ivl (i32 1) (i32 2)) = true).
Proof.
  split; [vm_compute; reflexivity|]. split; [vm_compute; reflexivity|]. split; [vm_compute; reflexivity|]. split; [vm_compute; reflexivity|].
  split; [apply ret_witness; vm_compute; reflexivity|]. split; [apply ub_witness; vm_compute; reflexivity|]. split; [apply ret_witness; vm_compute; reflexivity|].
  split; [apply ret_witness; vm_compute; reflexivity|]. split; [apply ret_witness; vm_compute; reflexivity|]. split; [split; reflexivity|].
  split; [apply ret_witness; vm_compute; reflexivity|]. split; [split; reflexivity|]. apply ret_witness; vm_compute; reflexivity.
Qed.
