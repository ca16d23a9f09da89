(** Properties of the algorithms (C40-C43). *)
From Coq Require Import Bool List Arith ZArith.
From Verif Require Import Outcome SetModel Spec SetProofs Num NumLaws IntervalModel IvlSpec IvlProofs IntNum IntProofs IterModel FloatNum ValueTypes IvlWrap Refute
  ConstrainModel CondSpec AlgoModel AlgoSpec AlgoProofs AlgoProofs2 AlgoProofs3 AlgoProofs4 PartIndexProofs.
Import ListNotations.
Open Scope nat_scope.

(** ** C40 *)
Theorem C40_lower_bound : forall O, order_type O -> forall dbg (t : term O) (r : list O), aproper (op_arg (operand_of t)) -> sorted r ->
  exists P, lower_bound dbg r (operand_of t) = Ret P
    /\ is_hull (fun i : iter_ordty (size r) => exists v m, tel t v /\ lower_bound_at r v m /\ idx i = Z.of_nat m) P.
Proof. exact (fun O H dbg t r => lower_bound_hull (order_type_laws O H) dbg t r). Qed.
Print Assumptions C40_lower_bound.
Theorem C40_upper_bound : forall O, order_type O -> forall dbg (t : term O) (r : list O), aproper (op_arg (operand_of t)) -> sorted r ->
  exists P, upper_bound dbg r (operand_of t) = Ret P
    /\ is_hull (fun i : iter_ordty (size r) => exists v m, tel t v /\ upper_bound_at r v m /\ idx i = Z.of_nat m) P.
Proof. exact (fun O H dbg t r => upper_bound_hull (order_type_laws O H) dbg t r). Qed.
Print Assumptions C40_upper_bound.
Example C40_bounds_example : sorted r1337 /\ aproper (op_arg (operand_of (TVar 0 V25)))
  /\ (exists P, lower_bound true r1337 (OpId 0 V25) = Ret P /\ (idx (lo P) =? 1)%Z && (idx (hi P) =? 3)%Z = true)
  /\ (exists P, upper_bound true r1337 (OpId 0 (Ivl (i32 3) (i32 7))) = Ret P /\ (idx (lo P) =? 3)%Z && (idx (hi P) =? 4)%Z = true).
Proof. split; [exact r1337_sorted|]. split; [reflexivity|]. split; apply ret_witness; vm_compute; reflexivity. Qed.
Theorem C40_lower_bound_scalar : forall O, order_type O -> forall (r : list O) (v : O), sorted r ->
  exists k i, lower_bound_at r v k /\ (forall k', lower_bound_at r v k' -> k' = k) /\ lower_bound_scalar r v = Ret i /\ idx i = Z.of_nat k.
Proof. exact (fun O H r v => lower_scalar_spec (order_type_laws O H) r v). Qed.
Print Assumptions C40_lower_bound_scalar.
Theorem C40_upper_bound_scalar : forall O, order_type O -> forall (r : list O) (v : O), sorted r -> ok v ->
  exists k i, upper_bound_at r v k /\ (forall k', upper_bound_at r v k' -> k' = k) /\ upper_bound_scalar r v = Ret i /\ idx i = Z.of_nat k.
Proof. exact (fun O H r v => upper_scalar_spec (order_type_laws O H) r v). Qed.
Print Assumptions C40_upper_bound_scalar.
(** A predicate convertible to bool; without a partition point the precondition of the standard algorithm is violated. *)
Theorem C40_partition_point_bool : forall (A : Type) (p : A -> outcome bool) (r : list A), (forall v, In v r -> exists b, p v = Ret b) ->
  (forall k, splits (fun v => p v = Ret true) r k -> exists i, partition_point_bool p r = Ret i /\ idx i = Z.of_nat k)
  /\ ((forall k, ~ splits (fun v => p v = Ret true) r k) -> partition_point_bool p r = UB).
Proof. exact (fun A p r Ht => conj (fun k => partition_point_bool_ok p r k Ht) (fun H => f_equal (fun o => bind o _) (std_pp_ub p r Ht H))). Qed.
Print Assumptions C40_partition_point_bool.
(** A predicate whose value is a set of truth values. *)
Theorem C40_partition_point_set : forall (A : Type) O (p : A -> outcome (cond O)) (s : A -> bset) (r : list A) k l,
  (forall v, In v r -> exists c, p v = Ret c /\ cset c = s v) -> (forall v, In v r -> exists b : bool, member (s v) b) ->
  splits (fun v => ~ member (s v) false) r k -> splits (fun v => member (s v) true) r l ->
  exists P, partition_point_set p r = Ret P /\ idx (lo P) = Z.of_nat k /\ idx (hi P) = Z.of_nat l
    /\ is_hull (fun i : iter_ordty (size r) => exists (q : A -> bool) m, selects s q r /\ splits (fun v => q v = true) r m /\ idx i = Z.of_nat m) P.
Proof. exact (fun A O p s r k l => partition_point_set_hull p s r k l). Qed.
Print Assumptions C40_partition_point_set.
Example C40_partition_point_set_example : exists P, partition_point_set some_value r1337 = Ret P /\ (idx (lo P) =? 1)%Z && (idx (hi P) =? 3)%Z = true.
Proof. apply ret_witness. vm_compute. reflexivity. Qed.
Theorem C40_vacuous_predicate : forall (A : Type) O (p : A -> outcome (cond O)) (r : list A), r <> [] ->
  (forall v, In v r -> exists c, p v = Ret c /\ forall b : bool, ~ member (cset c) b) -> partition_point_set p r = FailFast.
Proof. exact (fun A O p r => partition_point_vacuous p r). Qed.
Print Assumptions C40_vacuous_predicate.
Example C40_vacuous_example : partition_point_set no_value r1337 = FailFast.
Proof. vm_compute. reflexivity. Qed.

(** ** C41: [V] is the value of the object [x] at the time of the search, [X] its present value. *)
Theorem C41_lower_bound_constrain : forall O, order_type O -> forall dbg x (V X : ivl O) (r : list O) i v k,
  index_ok r i -> sorted r -> el V v -> el X v -> lower_bound_at r v k -> index_in i k ->
  exists Z, part_constrain dbg x X (lower_pred dbg (OpId x V)) r i = Ret Z /\ el Z v.
Proof. exact (fun O H dbg x V X r i v k => lower_part_sound (order_type_laws O H) dbg x V X r i v k). Qed.
Print Assumptions C41_lower_bound_constrain.
Theorem C41_upper_bound_constrain : forall O, order_type O -> forall dbg x (V X : ivl O) (r : list O) i v k,
  index_ok r i -> sorted r -> el V v -> el X v -> upper_bound_at r v k -> index_in i k ->
  exists Z, part_constrain dbg x X (upper_pred dbg (OpId x V)) r i = Ret Z /\ el Z v.
Proof. exact (fun O H dbg x V X r i v k => upper_part_sound (order_type_laws O H) dbg x V X r i v k). Qed.
Print Assumptions C41_upper_bound_constrain.
Example C41_example : index_ok r1337 (Iv I23) /\ sorted r1337 /\ el V25 (i32 4)
  /\ (exists Z, part_constrain true 0 V25 (lower_pred true (OpId 0 V25)) r1337 (Iv I23) = Ret Z /\ matches_ivl Z (Ivl (i32 4) (i32 5)) = true)
  /\ (exists Z, part_constrain true 0 V25 (upper_pred true (OpId 0 V25)) r1337 (Sc (i64 1)) = Ret Z /\ matches_ivl Z (Ivl (i32 2) (i32 2)) = true).
Proof. split; [exact I23_ok|]. split; [exact r1337_sorted|]. split; [split; reflexivity|]. split; apply ret_witness; vm_compute; reflexivity. Qed.
(** For integers and iterators the result has exactly the elements whose position is one of the given ones. *)
Theorem C41_lower_bound_exact : forall O, order_type O -> forall dbg x (V : ivl O) (r : list O) i Z, o_disc O = true -> index_ok r i -> sorted r -> proper V ->
  part_constrain dbg x V (lower_pred dbg (OpId x V)) r i = Ret Z -> forall w, el Z w <-> el V w /\ exists k, lower_bound_at r w k /\ index_in i k.
Proof. exact (fun O H dbg x V r i Z => lower_part_exact (order_type_laws O H) dbg x V r i Z). Qed.
Print Assumptions C41_lower_bound_exact.
Theorem C41_upper_bound_exact : forall O, order_type O -> forall dbg x (V : ivl O) (r : list O) i Z, o_disc O = true -> index_ok r i -> sorted r -> proper V ->
  part_constrain dbg x V (upper_pred dbg (OpId x V)) r i = Ret Z -> forall w, el Z w <-> el V w /\ exists k, upper_bound_at r w k /\ index_in i k.
Proof. exact (fun O H dbg x V r i Z => upper_part_exact (order_type_laws O H) dbg x V r i Z). Qed.
Print Assumptions C41_upper_bound_exact.
(** In general: the elements between the two neighbouring elements of the range. *)
Theorem C41_lower_bound_tight : forall O, order_type O -> forall dbg x (V : ivl O) (r : list O) i Z, index_ok r i -> sorted r -> proper V ->
  part_constrain dbg x V (lower_pred dbg (OpId x V)) r i = Ret Z -> forall w, el Z w <-> el V w
    /\ ((0 < val (alower i))%Z -> forall e, nth_error r (Z.to_nat (val (alower i) - 1)) = Some e -> (if o_disc O then o_lt e w else o_le e w) = true)
    /\ ((val (aupper i) < size r)%Z -> forall e, nth_error r (Z.to_nat (val (aupper i))) = Some e -> o_le w e = true).
Proof. exact (fun O H dbg x V r i Z => lower_part_tight (order_type_laws O H) dbg x V r i Z). Qed.
Print Assumptions C41_lower_bound_tight.
Theorem C41_upper_bound_tight : forall O, order_type O -> forall dbg x (V : ivl O) (r : list O) i Z, index_ok r i -> sorted r -> proper V ->
  part_constrain dbg x V (upper_pred dbg (OpId x V)) r i = Ret Z -> forall w, el Z w <-> el V w
    /\ ((0 < val (alower i))%Z -> forall e, nth_error r (Z.to_nat (val (alower i) - 1)) = Some e -> o_le e w = true)
    /\ ((val (aupper i) < size r)%Z -> forall e, nth_error r (Z.to_nat (val (aupper i))) = Some e -> (if o_disc O then o_lt w e else o_le w e) = true).
Proof. exact (fun O H dbg x V r i Z => upper_part_tight (order_type_laws O H) dbg x V r i Z). Qed.
Print Assumptions C41_upper_bound_tight.
(** The partition of a temporary interval cannot be used as a constraint. *)
Theorem C41_temporary_rejected : forall O, order_type O -> forall dbg x (V X : ivl O) (r : list O) i e, index_ok r i -> sorted r -> proper V ->
  (0 < val (alower i))%Z -> nth_error r 0 = Some e -> part_constrain dbg x X (lower_pred dbg (OpVal (Iv V))) r i = FailFast.
Proof. exact (fun O H dbg x V X r i e => part_temporary (order_type_laws O H) dbg x V X r i e). Qed.
Print Assumptions C41_temporary_rejected.
(** An index that is not in the range: a debug build fails fast, and so does any build if the index is unassigned.  A release build reads outside of the range if the whole index is outside, and otherwise
    treats the index as if it were cut off at the ends of the range. *)
Theorem C41_index_out_of_range : forall (O : ordty) (A : Type) x (X : ivl O) (p : A -> outcome (cond O)) (r : list A) (i : arg (int_ordty 64)),
  (~ index_ok r i -> part_constrain true x X p r i = FailFast)
  /\ (forall dbg, ~ aproper i -> part_constrain dbg x X p r i = FailFast)
  /\ (aproper i -> r <> [] -> (val (aupper i) < 0 \/ size r < val (alower i))%Z -> part_constrain false x X p r i = UB)
  /\ (aproper i -> forall j : arg (int_ordty 64), aproper j -> val (alower j) = Z.max 0 (val (alower i)) -> val (aupper j) = Z.min (size r) (val (aupper i)) ->
      part_constrain false x X p r i = part_constrain false x X p r j).
Proof. exact (fun O A => part_out_of_range). Qed.
Print Assumptions C41_index_out_of_range.
Theorem C41_scalar_index_out_of_range : forall (O : ordty) (A : Type) (x : O) (p : A -> outcome bool) (r : list A) (i : arg (int_ordty 64)),
  (~ index_ok r i -> part_constrain_scalar true x p r i = FailFast)
  /\ (forall dbg, ~ aproper i -> part_constrain_scalar dbg x p r i = FailFast) /\ (aproper i -> part_constrain_scalar false x p r i = Ret x).
Proof. exact (fun O A => part_scalar_out). Qed.
Print Assumptions C41_scalar_index_out_of_range.
Example C41_index_out_of_range_example : ~ index_ok r1337 (Sc (i64 5)) /\ ~ index_ok r1337 (Sc (i64 (-1)))
  /\ part_constrain false 0 V25 (lower_pred false (OpId 0 V25)) r1337 (Sc (i64 (-1))) = UB
  /\ part_constrain true 0 V25 (lower_pred true (OpId 0 V25)) r1337 (Sc (i64 (-1))) = FailFast.
Proof.
  split; [intros (_ & _ & H); vm_compute in H; apply H; reflexivity|]. split; [intros (_ & H & _); vm_compute in H; apply H; reflexivity|].
  split; [apply part_out_of_range; [reflexivity|discriminate|left; reflexivity]|]. apply (proj1 (part_out_of_range _ _ _ _ _)). intros (_ & H & _). vm_compute in H. apply H. reflexivity.
Qed.
(** Scalars: the constraint returns its argument, and in debug mode rejects an index that is not the position. *)
Theorem C41_scalar_lower : forall O, order_type O -> forall dbg (r : list O) v i k, index_ok r i -> lower_bound_at r v k ->
  (index_in i k -> part_constrain_scalar dbg v (lower_pred_scalar v) r i = Ret v) /\ (~ index_in i k -> part_constrain_scalar true v (lower_pred_scalar v) r i = FailFast).
Proof. exact (fun O H dbg r v i k => scalar_lower_part dbg r v i k). Qed.
Print Assumptions C41_scalar_lower.
Theorem C41_scalar_upper : forall O, order_type O -> forall dbg (r : list O) v i k, index_ok r i -> upper_bound_at r v k ->
  (index_in i k -> part_constrain_scalar dbg v (upper_pred_scalar v) r i = Ret v) /\ (~ index_in i k -> part_constrain_scalar true v (upper_pred_scalar v) r i = FailFast).
Proof. exact (fun O H dbg r v i k => scalar_upper_part dbg r v i k). Qed.
Print Assumptions C41_scalar_upper.
Example C41_scalar_example : part_constrain_scalar true (i32 4) (lower_pred_scalar (i32 4)) r1337 (Sc (i64 3)) = Ret (i32 4)
  /\ part_constrain_scalar true (i32 4) (lower_pred_scalar (i32 4)) r1337 (Sc (i64 2)) = FailFast.
Proof. split; reflexivity. Qed.

(** ** C42 *)
Theorem C42_enumerate_interval : forall O, order_type O -> o_disc O = true -> forall X : ivl O, proper X -> exists l n,
  (forall fuel, n <= fuel -> enumerate_interval fuel X = Some (Ret l)) /\ ascending l /\ forall v, In v l <-> el X v.
Proof. exact enumerate_discrete. Qed.
Print Assumptions C42_enumerate_interval.
Example C42_enumerate_largest_example : proper (@Ivl int32 (i32 2147483645) (i32 2147483647))
  /\ match enumerate_interval 3 (@Ivl int32 (i32 2147483645) (i32 2147483647)) with Some (Ret l) => map val l = [2147483645; 2147483646; 2147483647]%Z | _ => False end.
Proof. split; [|vm_compute]; reflexivity. Qed.
Theorem C42_enumerate_unassigned : forall (O : ordty) (X : ivl O) fuel, assigned X = false -> enumerate_interval fuel X = Some FailFast.
Proof. exact (fun O => @enumerate_unassigned O). Qed.
Print Assumptions C42_enumerate_unassigned.
Theorem C42_enumerate_set : forall (E : enum_type) (s : vset E), enum_ok E -> wf_set s -> (exists v, member s v) -> exists l m,
  (forall fuel, m <= fuel -> enumerate_set fuel s = Some (Ret l)) /\ NoDup l /\ (exists f, l = filter f (ev_values E)) /\ forall v, In v l <-> member s v.
Proof. exact (fun E => @enumerate_set_ok E). Qed.
Print Assumptions C42_enumerate_set.
Example C42_enumerate_set_example : enumerate_set 2 (@mkset sign_enum 5) = Some (Ret [negative_sign; positive_sign]).
Proof. reflexivity. Qed.
Theorem C42_enumerate_empty_set : forall (E : enum_type) (s : vset E) fuel, wf_set s -> (forall v, ~ member s v) -> enumerate_set fuel s = Some FailFast.
Proof. exact (fun E => @enumerate_set_empty E). Qed.
Print Assumptions C42_enumerate_empty_set.
Theorem C42_enumerate_scalar : forall (T : Type) (v : T) fuel, 1 <= fuel -> enumerate_scalar fuel v = Some (Ret [v]).
Proof. exact (fun T => @enumerate_one T). Qed.
Print Assumptions C42_enumerate_scalar.

(** ** C43 *)
Theorem C43_at_numbers : forall N, value_type N -> forall (r : list (arg N)) (I : ivl (int_ordty 64)),
  (size r <= int_max 64)%Z -> (forall a, In a r -> aproper a) -> proper I -> (0 <= val (lo I))%Z -> (val (hi I) < size r)%Z ->
  exists Z, at_numbers r I = Ret Z
    /\ is_hull (fun v => exists i a, (val (lo I) <= Z.of_nat i <= val (hi I))%Z /\ nth_error r i = Some a /\ ael a v) Z.
Proof. exact (fun N H r I => at_numbers_hull (value_type_laws N H) r I). Qed.
Print Assumptions C43_at_numbers.
Theorem C43_at_sets : forall (E : enum_type) dbg (r : list (vset E)) (I : ivl (int_ordty 64)),
  (size r <= int_max 64)%Z -> (forall s, In s r -> wf_set s /\ exists v, member s v) -> proper I -> (0 <= val (lo I))%Z -> (val (hi I) < size r)%Z ->
  exists t, at_sets dbg r I = Ret t /\ wf_set t
    /\ forall v, member t v <-> exists i s, (val (lo I) <= Z.of_nat i <= val (hi I))%Z /\ nth_error r i = Some s /\ member s v.
Proof. exact (fun E => @at_sets_union E). Qed.
Print Assumptions C43_at_sets.
Theorem C43_at_out_of_range : forall (A S : Type) (assign : S -> A -> outcome S) init (r : list A) (I : ivl (int_ordty 64)),
  ~ (proper I /\ (0 <= val (lo I))%Z /\ (val (hi I) < size r)%Z) -> at_interval assign init r I = FailFast.
Proof. exact (fun A S => @at_interval_fail A S). Qed.
Print Assumptions C43_at_out_of_range.
Theorem C43_at_index : forall (A : Type) (r : list A) (i : int_ordty 64),
  (forall v, at_index r i = Ret v <-> (0 <= val i)%Z /\ nth_error r (Z.to_nat (val i)) = Some v) /\ (~ (0 <= val i < size r)%Z -> at_index r i = FailFast).
Proof. exact (fun A => @at_index_ok A). Qed.
Print Assumptions C43_at_index.
Example C43_example : (exists Z, at_numbers (N := int32) [Sc (i32 5); Iv (Ivl (i32 1) (i32 2)); Sc (i32 4); Sc (i32 0)] (@Ivl (int_ordty 64) (i64 1) (i64 2)) = Ret Z
    /\ matches_ivl Z (Ivl (i32 1) (i32 4)) = true)
  /\ at_numbers (N := int32) [Sc (i32 5)] (@Ivl (int_ordty 64) (i64 0) (i64 1)) = FailFast.
Proof. split; [apply ret_witness; vm_compute; reflexivity|reflexivity]. Qed.
