(** Properties of searches with a comparison given by the caller (C60). *)
From Coq Require Import Bool List Arith ZArith.
From Verif Require Import Outcome SetModel Spec SetProofs Num NumLaws IntervalModel IvlSpec IvlProofs IntNum IntProofs IterModel FloatNum ValueTypes IvlWrap Refute
  ConstrainModel CondSpec AlgoModel AlgoSpec AlgoProofs4 SearchModel SearchSpec SearchProofs.
Import ListNotations.
Open Scope nat_scope.

(** ** C60 *)
Theorem C60_lower_bound : forall O, order_type O -> forall dbg (c : comparator) (t : term O) (r : list O), aproper (op_arg (operand_of t)) -> arranged c r ->
  exists P, lower_bound_by dbg c r (operand_of t) = Ret P
    /\ is_hull (fun i : iter_ordty (size r) => exists v m, tel t v /\ lower_at c r v m /\ idx i = Z.of_nat m) P.
Proof. exact (fun O H dbg c t r => search_hull (order_type_laws O H) dbg true c t r). Qed.
Print Assumptions C60_lower_bound.
Theorem C60_upper_bound : forall O, order_type O -> forall dbg (c : comparator) (t : term O) (r : list O), aproper (op_arg (operand_of t)) -> arranged c r ->
  exists P, upper_bound_by dbg c r (operand_of t) = Ret P
    /\ is_hull (fun i : iter_ordty (size r) => exists v m, tel t v /\ upper_at c r v m /\ idx i = Z.of_nat m) P.
Proof. exact (fun O H dbg c t r => search_hull (order_type_laws O H) dbg false c t r). Qed.
Print Assumptions C60_upper_bound.
Example C60_bounds_example : arranged Greater r7331 /\ aproper (op_arg (operand_of (TVar 0 V25)))
  /\ (exists P, lower_bound_by true Greater r7331 (OpId 0 V25) = Ret P /\ (idx (lo P) =? 1)%Z && (idx (hi P) =? 3)%Z = true)
  /\ (exists P, upper_bound_by true Greater r7331 (OpId 0 (Ivl (i32 3) (i32 7))) = Ret P /\ (idx (lo P) =? 1)%Z && (idx (hi P) =? 3)%Z = true).
Proof. split; [exact r7331_arranged|]. split; [reflexivity|]. split; apply ret_witness; vm_compute; reflexivity. Qed.
Theorem C60_lower_bound_scalar : forall O, order_type O -> forall c (r : list O) (v : O), arranged c r -> ok v ->
  exists k i, lower_at c r v k /\ (forall k', lower_at c r v k' -> k' = k) /\ lower_bound_scalar_by c r v = Ret i /\ idx i = Z.of_nat k.
Proof. exact (fun O H c r v => scalar_search_spec (order_type_laws O H) true c r v). Qed.
Print Assumptions C60_lower_bound_scalar.
Theorem C60_upper_bound_scalar : forall O, order_type O -> forall c (r : list O) (v : O), arranged c r -> ok v ->
  exists k i, upper_at c r v k /\ (forall k', upper_at c r v k' -> k' = k) /\ upper_bound_scalar_by c r v = Ret i /\ idx i = Z.of_nat k.
Proof. exact (fun O H c r v => scalar_search_spec (order_type_laws O H) false c r v). Qed.
Print Assumptions C60_upper_bound_scalar.
Example C60_scalar_example : (exists i, lower_bound_scalar_by Greater r7331 (i32 3) = Ret i /\ (idx i =? 1)%Z = true)
  /\ (exists i, upper_bound_scalar_by Greater r7331 (i32 3) = Ret i /\ (idx i =? 3)%Z = true).
Proof. split; apply ret_witness; vm_compute; reflexivity. Qed.
(** Constraints by the partition: [V] is the value of the object [x] at the time of the search, [X] its present value. *)
Theorem C60_lower_bound_constrain : forall O, order_type O -> forall dbg c x (V X : ivl O) (r : list O) i v k,
  index_ok r i -> arranged c r -> el V v -> el X v -> lower_at c r v k -> index_in i k ->
  exists Z, part_constrain dbg x X (lower_pred_by dbg c (OpId x V)) r i = Ret Z /\ el Z v.
Proof. exact (fun O H dbg c x V X r i v k => part_sound_by (order_type_laws O H) dbg true c x V X r i v k). Qed.
Print Assumptions C60_lower_bound_constrain.
Theorem C60_upper_bound_constrain : forall O, order_type O -> forall dbg c x (V X : ivl O) (r : list O) i v k,
  index_ok r i -> arranged c r -> el V v -> el X v -> upper_at c r v k -> index_in i k ->
  exists Z, part_constrain dbg x X (upper_pred_by dbg c (OpId x V)) r i = Ret Z /\ el Z v.
Proof. exact (fun O H dbg c x V X r i v k => part_sound_by (order_type_laws O H) dbg false c x V X r i v k). Qed.
Print Assumptions C60_upper_bound_constrain.
Example C60_constrain_example : index_ok r7331 (Sc (i64 1)) /\ arranged Greater r7331 /\ el V25 (i32 4)
  /\ (exists Z, part_constrain true 0 V25 (lower_pred_by true Greater (OpId 0 V25)) r7331 (Sc (i64 1)) = Ret Z /\ matches_ivl Z (Ivl (i32 3) (i32 5)) = true)
  /\ (exists Z, part_constrain true 0 V25 (upper_pred_by true Greater (OpId 0 V25)) r7331 (Sc (i64 1)) = Ret Z /\ matches_ivl Z (Ivl (i32 4) (i32 5)) = true).
Proof. split; [split; [reflexivity|split; discriminate]|]. split; [exact r7331_arranged|]. split; [split; reflexivity|]. split; apply ret_witness; vm_compute; reflexivity. Qed.
(** The result lies between the two neighbouring elements of the range. *)
Theorem C60_lower_bound_tight : forall O, order_type O -> forall dbg c x (V : ivl O) (r : list O) i Z, index_ok r i -> arranged c r -> proper V ->
  part_constrain dbg x V (lower_pred_by dbg c (OpId x V)) r i = Ret Z -> forall w, el Z w <-> el V w
    /\ ((0 < val (alower i))%Z -> forall e, nth_error r (Z.to_nat (val (alower i) - 1)) = Some e -> rel_holds (relaxed O (rel_of c)) e w = true)
    /\ ((val (aupper i) < size r)%Z -> forall e, nth_error r (Z.to_nat (val (aupper i))) = Some e -> rel_holds (relaxed O (rel_neg (rel_of c))) e w = true).
Proof. exact (fun O H dbg c x V r i Z => part_tight_by (order_type_laws O H) dbg true c x V r i Z). Qed.
Print Assumptions C60_lower_bound_tight.
Theorem C60_upper_bound_tight : forall O, order_type O -> forall dbg c x (V : ivl O) (r : list O) i Z, index_ok r i -> arranged c r -> proper V ->
  part_constrain dbg x V (upper_pred_by dbg c (OpId x V)) r i = Ret Z -> forall w, el Z w <-> el V w
    /\ ((0 < val (alower i))%Z -> forall e, nth_error r (Z.to_nat (val (alower i) - 1)) = Some e -> rel_holds (relaxed O (rel_neg (rel_of c))) w e = true)
    /\ ((val (aupper i) < size r)%Z -> forall e, nth_error r (Z.to_nat (val (aupper i))) = Some e -> rel_holds (relaxed O (rel_of c)) w e = true).
Proof. exact (fun O H dbg c x V r i Z => part_tight_by (order_type_laws O H) dbg false c x V r i Z). Qed.
Print Assumptions C60_upper_bound_tight.
(** For integers and iterators the result has exactly the elements whose position is one of the given ones. *)
Theorem C60_lower_bound_exact : forall O, order_type O -> forall dbg c x (V : ivl O) (r : list O) i Z, o_disc O = true -> index_ok r i -> arranged c r -> proper V ->
  part_constrain dbg x V (lower_pred_by dbg c (OpId x V)) r i = Ret Z -> forall w, el Z w <-> el V w /\ exists k, lower_at c r w k /\ index_in i k.
Proof. exact (fun O H dbg c x V r i Z => part_exact_by (order_type_laws O H) dbg true c x V r i Z). Qed.
Print Assumptions C60_lower_bound_exact.
Theorem C60_upper_bound_exact : forall O, order_type O -> forall dbg c x (V : ivl O) (r : list O) i Z, o_disc O = true -> index_ok r i -> arranged c r -> proper V ->
  part_constrain dbg x V (upper_pred_by dbg c (OpId x V)) r i = Ret Z -> forall w, el Z w <-> el V w /\ exists k, upper_at c r w k /\ index_in i k.
Proof. exact (fun O H dbg c x V r i Z => part_exact_by (order_type_laws O H) dbg false c x V r i Z). Qed.
Print Assumptions C60_upper_bound_exact.
(** The weak comparators exchange the two searches. *)
Theorem C60_weak_comparison : forall O, order_type O -> forall dbg (t : term O) (r : list O), aproper (op_arg (operand_of t)) ->
  (arranged LessEq r -> lower_bound_by dbg LessEq r (operand_of t) = upper_bound_by dbg Less r (operand_of t)
    /\ upper_bound_by dbg LessEq r (operand_of t) = lower_bound_by dbg Less r (operand_of t))
  /\ (arranged GreaterEq r -> lower_bound_by dbg GreaterEq r (operand_of t) = upper_bound_by dbg Greater r (operand_of t)
    /\ upper_bound_by dbg GreaterEq r (operand_of t) = lower_bound_by dbg Greater r (operand_of t)).
Proof. exact (fun O H dbg t r => weak_searches (order_type_laws O H) dbg t r). Qed.
Print Assumptions C60_weak_comparison.
Example C60_weak_example : exists P, lower_bound_by true GreaterEq r7331 (OpId 0 V25) = Ret P /\ (idx (lo P) =? 1)%Z && (idx (hi P) =? 3)%Z = true.
Proof. apply ret_witness; vm_compute; reflexivity. Qed.
