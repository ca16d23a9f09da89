(** Properties of searches in a range of another value type (C63). *)
From Coq Require Import Bool List Arith ZArith.
From Flocq Require Import Core BinarySingleNaN.
From Verif Require Import Outcome SetModel Num NumLaws IntervalModel IvlSpec IntNum IterModel FloatNum FloatProofs ValueTypes IvlWrap Refute
  ConstrainModel CondSpec MixedModel MixedArithModel ConvProofs AlgoModel AlgoSpec AlgoProofs4 SearchModel SearchSpec WidenSpec WidenProofs TableModel TableSpec TableProofs.
Import ListNotations.
Open Scope nat_scope.

(** ** C63 *)
Theorem C63_lower_bound : forall (I T : num) (c : I -> T), value_type T -> converts I T c -> forall dbg (t : term T) (r : list I), aproper (op_arg (operand_of t)) -> sorted r ->
  exists P, lower_bound_table c dbg r (operand_of t) = Ret P
    /\ is_hull (fun i : iter_ordty (size r) => exists v m, tel t v /\ table_lower_at c r v m /\ idx i = Z.of_nat m) P.
Proof. exact (fun I T c HT HC dbg t r => let '(conj A (conj B C)) := converts_laws I T c HT HC in lower_table_hull c B C dbg t r). Qed.
Print Assumptions C63_lower_bound.
Theorem C63_upper_bound : forall (I T : num) (c : I -> T), value_type T -> converts I T c -> forall dbg (t : term T) (r : list I), aproper (op_arg (operand_of t)) -> sorted r ->
  exists P, upper_bound_table c dbg r (operand_of t) = Ret P
    /\ is_hull (fun i : iter_ordty (size r) => exists v m, tel t v /\ table_upper_at c r v m /\ idx i = Z.of_nat m) P.
Proof. exact (fun I T c HT HC dbg t r => let '(conj A (conj B C)) := converts_laws I T c HT HC in upper_table_hull c B C dbg t r). Qed.
Print Assumptions C63_upper_bound.
Theorem C63_lower_constrain_partial : forall (I T : num) (c : I -> T), widens I T c -> forall dbg (r : list I) (X : ivl T) (K : arg (int_ordty 64)) (v : T) (k : nat),
  index_ok r K -> sorted r -> has_next r -> el X v -> table_lower_at c r v k -> index_in K k ->
  exists Z, lower_table_constrain c dbg X r K = Ret Z /\ el Z v.
Proof. exact (fun I T c W dbg => lower_table_sound W dbg). Qed.
Print Assumptions C63_lower_constrain_partial.
Theorem C63_upper_constrain_partial : forall (I T : num) (c : I -> T), widens I T c -> forall dbg (r : list I) (X : ivl T) (K : arg (int_ordty 64)) (v : T) (k : nat),
  index_ok r K -> sorted r -> has_previous r -> el X v -> table_upper_at c r v k -> index_in K k ->
  exists Z, upper_table_constrain c dbg X r K = Ret Z /\ el Z v.
Proof. exact (fun I T c W dbg => upper_table_sound W dbg). Qed.
Print Assumptions C63_upper_constrain_partial.
(** Missing in the preceding theorems: a table of integers and a floating-point interval.  The table is {1, 2, 4, 8}; values
    of x whose position is among the given ones are lost, or the program is terminated. *)
Theorem C63_constrain_refuted : exists (X : ivl float64) (K : ivl (int_ordty 64)) (v : float64) Z, index_ok xs1248 (Iv K) /\ sorted xs1248 /\ el X v
  /\ table_lower_at (O := float64) (I := int32) int_to_double xs1248 v 1 /\ index_in (Iv K) 1
  /\ lower_table_constrain (O := float64) (I := int32) int_to_double true X xs1248 (Iv K) = Ret Z /\ ~ el Z v.
Proof. exact table_drops. Qed.
Print Assumptions C63_constrain_refuted.
Theorem C63_failfast_refuted : exists (X : ivl float64) (K : int_ordty 64) (v : float64), index_ok xs1248 (Sc K) /\ sorted xs1248 /\ el X v
  /\ table_lower_at (O := float64) (I := int32) int_to_double xs1248 v 1 /\ index_in (Sc K) 1
  /\ lower_table_constrain (O := float64) (I := int32) int_to_double true X xs1248 (Sc K) = FailFast.
Proof. exact table_fails. Qed.
Print Assumptions C63_failfast_refuted.
(** The result of the constraint. *)
Theorem C63_lower_tight : forall (I T : num) (c : I -> T), widens I T c -> forall dbg (r : list I) (X : ivl T) (K : arg (int_ordty 64)) (Z : ivl T),
  index_ok r K -> sorted r -> has_next r -> proper X -> lower_table_constrain c dbg X r K = Ret Z ->
  forall w, el Z w <-> el X w
    /\ ((0 < val (alower K))%Z -> forall e, nth_error r (Z.to_nat (val (alower K) - 1)) = Some e -> rel_holds (relaxed T RLt) (c e) w = true)
    /\ ((val (aupper K) < size r)%Z -> forall e, nth_error r (Z.to_nat (val (aupper K))) = Some e -> o_le w (c e) = true).
Proof. exact (fun I T c W dbg => lower_table_tight W dbg). Qed.
Print Assumptions C63_lower_tight.
Theorem C63_upper_tight : forall (I T : num) (c : I -> T), widens I T c -> forall dbg (r : list I) (X : ivl T) (K : arg (int_ordty 64)) (Z : ivl T),
  index_ok r K -> sorted r -> has_previous r -> proper X -> upper_table_constrain c dbg X r K = Ret Z ->
  forall w, el Z w <-> el X w
    /\ ((0 < val (alower K))%Z -> forall e, nth_error r (Z.to_nat (val (alower K) - 1)) = Some e -> o_le (c e) w = true)
    /\ ((val (aupper K) < size r)%Z -> forall e, nth_error r (Z.to_nat (val (aupper K))) = Some e -> rel_holds (relaxed T RLt) w (c e) = true).
Proof. exact (fun I T c W dbg => upper_table_tight W dbg). Qed.
Print Assumptions C63_upper_tight.
Theorem C63_lower_exact : forall (I T : num) (c : I -> T), widens I T c -> forall dbg (r : list I) (X : ivl T) (K : arg (int_ordty 64)) (Z : ivl T),
  o_disc T = true -> index_ok r K -> sorted r -> has_next r -> proper X -> lower_table_constrain c dbg X r K = Ret Z ->
  forall w, el Z w <-> el X w /\ exists k, table_lower_at c r w k /\ index_in K k.
Proof. exact (fun I T c W dbg => lower_table_exact W dbg). Qed.
Print Assumptions C63_lower_exact.
Theorem C63_upper_exact : forall (I T : num) (c : I -> T), widens I T c -> forall dbg (r : list I) (X : ivl T) (K : arg (int_ordty 64)) (Z : ivl T),
  o_disc T = true -> index_ok r K -> sorted r -> has_previous r -> proper X -> upper_table_constrain c dbg X r K = Ret Z ->
  forall w, el Z w <-> el X w /\ exists k, table_upper_at c r w k /\ index_in K k.
Proof. exact (fun I T c W dbg => upper_table_exact W dbg). Qed.
Print Assumptions C63_upper_exact.
(** The table {1, 2, 4, 8} of ints, searched for [1.25, 2.5] of type interval<double> and for [2, 5] of type interval<long>. *)
Example C63_example : converts int32 float64 int_to_double /\ widens int32 int64 int_to_long /\ sorted xs1248 /\ has_next xs1248 /\ has_previous xs1248
  /\ (exists P, lower_bound_table (O := float64) (I := int32) int_to_double true xs1248 (OpId 0 X_125_25) = Ret P /\ (idx (lo P) =? 1)%Z && (idx (hi P) =? 2)%Z = true)
  /\ (exists P, upper_bound_table (O := int64) (I := int32) int_to_long true xs1248 (OpId 0 (Ivl (i64 2) (i64 5))) = Ret P /\ (idx (lo P) =? 2)%Z && (idx (hi P) =? 3)%Z = true)
  /\ (exists Z, lower_table_constrain (O := int64) (I := int32) int_to_long true (Ivl (i64 2) (i64 5)) xs1248 (Sc (i64 2)) = Ret Z /\ o_eq (lo Z) (i64 3) && o_eq (hi Z) (i64 4) = true)
  /\ (exists Z, upper_table_constrain (O := int64) (I := int32) int_to_long true (Ivl (i64 2) (i64 5)) xs1248 (Sc (i64 2)) = Ret Z /\ o_eq (lo Z) (i64 2) && o_eq (hi Z) (i64 3) = true).
Proof.
  split; [apply cv_int_float; discriminate|]. split; [exact int_to_long_widens|]. split; [exact xs1248_sorted|].
  split; [intros e H; repeat (destruct H as [<-|H]; [eexists; reflexivity|]); destruct H|]. split; [intros e H; repeat (destruct H as [<-|H]; [eexists; reflexivity|]); destruct H|].
  split; [apply ret_witness; vm_compute; reflexivity|]. split; [apply ret_witness; vm_compute; reflexivity|]. split; apply ret_witness; vm_compute; reflexivity.
Qed.
