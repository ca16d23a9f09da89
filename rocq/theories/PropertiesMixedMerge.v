(** Properties of [merge] and [intersect]: arguments of different value types (C73), unassigned arguments (C38). *)
From Coq Require Import Bool List ZArith.
From Verif Require Import Outcome Num NumLaws IntervalModel IvlSpec IntNum FloatNum FloatProofs ValueTypes IvlWrap MixedModel MixedArithModel MixedMergeModel MixedMergeSpec MixedMergeProofs.
Import ListNotations.

(** ** C38 *)
(** The first argument of [merge] may be unassigned. *)
Theorem C38_merge_unassigned : forall N, value_type N -> forall (X : ivl N) l, proper X -> Forall proper l ->
  exists Z, merge ivl_default (X :: l) = Ret Z /\ is_hull (fun v => exists Y, In Y (X :: l) /\ el Y v) Z.
Proof. exact (fun N H => merge_default H). Qed.
Print Assumptions C38_merge_unassigned.
(** [intersect] with an unassigned interval, which has no elements, returns an interval that contains every number. *)
Theorem C38_intersect_unassigned_refuted : forall N, value_type N -> forall X : ivl N, proper X ->
  exists Z, intersect X [ivl_default] = Ret Z /\ forall v, ok v -> el Z v.
Proof. exact (fun N H => intersect_default H). Qed.
Print Assumptions C38_intersect_unassigned_refuted.
Example C38_unassigned_example : proper (Ivl (i32 1) (i32 2)) /\ (exists Z, merge (@ivl_default int32) [Ivl (i32 1) (i32 2); Ivl (i32 4) (i32 5)] = Ret Z /\ matches_ivl Z (Ivl (i32 1) (i32 5)) = true)
  /\ ok (i32 1000).
Proof. split; [reflexivity|]. split; [apply ret_witness; vm_compute; reflexivity|reflexivity]. Qed.

(** ** C73 *)
(** [gives o v]: [v] is an element of the argument [o], converted to the common type [T]; [spans o v]: [v] lies between two such values. *)
Theorem C73_merge : forall T, value_type T -> forall (o : operand_to T) l, usual o -> oproper o -> Forall proper l ->
  exists Z, mixed_merge o l = Ret Z /\ is_hull (fun v => gives o v \/ exists Y, In Y l /\ el Y v) Z.
Proof. exact (fun T H => mixed_merge_hull H). Qed.
Print Assumptions C73_merge.
Theorem C73_merge_unassigned : forall T, value_type T -> forall (o : operand_to T) (Y : ivl T) l, ounassigned o -> proper Y -> Forall proper l ->
  exists Z, mixed_merge o (Y :: l) = Ret Z /\ is_hull (fun v => exists W, In W (Y :: l) /\ el W v) Z.
Proof. exact (fun T H => mixed_merge_unassigned H). Qed.
Print Assumptions C73_merge_unassigned.
Theorem C73_intersect_partial : forall T, value_type T -> forall (o : operand_to T) l, Forall usual (o :: l) -> Forall oproper (o :: l) ->
  (exists v, forall p, In p (o :: l) -> spans p v) ->
  exists Z, mixed_intersect o l = Ret Z /\ forall v, el Z v <-> forall p, In p (o :: l) -> spans p v.
Proof. exact (fun T H => mixed_intersect_common H). Qed.
Print Assumptions C73_intersect_partial.
(** Missing compared with C73: the arguments must have a common value.  Without one the call still returns an assigned interval, the gap, as in C38; see C38_intersect_disjoint. *)
Theorem C73_intersect_returns : forall T, value_type T -> forall (o : operand_to T) l, Forall usual (o :: l) -> Forall oproper (o :: l) ->
  exists Z, mixed_intersect o l = Ret Z /\ proper Z.
Proof. exact (fun T H => mixed_intersect_returns H). Qed.
Print Assumptions C73_intersect_returns.
(** As C38_intersect_unassigned_refuted. *)
Theorem C73_intersect_unassigned_refuted : forall T, value_type T -> forall (X : ivl T) (o : operand_to T), proper X -> ounassigned o ->
  exists Z, mixed_intersect (Same X) [o] = Ret Z /\ forall v, ok v -> el Z v.
Proof. exact (fun T H => mixed_intersect_unassigned H). Qed.
Print Assumptions C73_intersect_unassigned_refuted.
(** The integers [1, 3] and the numbers [5/2, 4]; the result of [intersect] contains 11/4, which lies between integers of the first argument. *)
Example C73_example (o := From int32 int_to_double (Ivl (i32 1) (i32 3)) : operand_to float64) (Y := Ivl (f64 5 (-1)) (f64 4 0) : ivl float64) :
  usual o /\ oproper o /\ proper Y /\ spans o (f64 3 0) /\ spans (Same Y) (f64 3 0) /\ ounassigned (From int32 int_to_double ivl_default : operand_to float64)
  /\ (exists Z, mixed_merge o [Y] = Ret Z /\ matches_ivl Z (Ivl (f64 1 0) (f64 4 0) : ivl float64) = true)
  /\ (exists Z, mixed_intersect o [Same Y] = Ret Z /\ matches_ivl Z (Ivl (f64 5 (-1)) (f64 3 0) : ivl float64) = true).
Proof.
  split. { exact (cv_int_float 32 le_2_32 53 1024 prec_gt_0_53 prec_lt_emax_64 ltac:(discriminate)). }
  split; [reflexivity|]. split; [reflexivity|].
  split. { exists (int_to_double (i32 1)), (int_to_double (i32 3)). split; [exists (i32 1); repeat split|]. split; [exists (i32 3); repeat split|]. split; vm_compute; reflexivity. }
  split. { exists (f64 3 0), (f64 3 0). repeat split; vm_compute; reflexivity. }
  split; [reflexivity|]. split; apply ret_witness; vm_compute; reflexivity.
Qed.
