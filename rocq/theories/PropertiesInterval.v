(** Properties of intervals: relations, queries, assignment, merging (C07-C12, C37-C39, C52). *)
From Coq Require Import Bool List ZArith Permutation.
From Verif Require Import Outcome SetModel Spec SetProofs Num NumLaws IntervalModel IvlSpec IvlProofs ArithProofs ArithProofs2 ArithProofs4 ArithProofs5 Reach
  IntNum FloatNum IterModel IterProofs ValueTypes IvlWrap Refute.
Import ListNotations.

(** ** C07, products of sign sets and intervals *)
Theorem C07_sgn : forall N, value_type N -> forall dbg (X : ivl N), proper X ->
  exists s, isgn dbg X = Ret s /\ wf_set s /\ forall t, member s t <-> exists u, el X u /\ has_sign u t.
Proof. exact (fun N H dbg X => isgn_exact (value_type_laws N H) dbg X). Qed.
Print Assumptions C07_sgn.
Example C07_sgn_example : proper (Ivl (i32 (-3)) (i32 0)) /\ isgn true (Ivl (i32 (-3)) (i32 0)) = Ret (mkset 3).
Proof. split; reflexivity. Qed.

Theorem C07_signs_times_interval : forall N, value_type N -> forall dbg (s : sset) (X : ivl N), proper X ->
  ((member s negative_sign -> defined1 n_neg X) -> exists Z, signs_mul_ivl dbg s X = Ret Z)
  /\ forall Z, signs_mul_ivl dbg s X = Ret Z ->
     (member s negative_sign -> defined1 n_neg X)
     /\ ((exists t, member s t) -> is_hull (fun z => exists t u, member s t /\ el X u /\ sign_times t u = Ret z) Z)
     /\ ((forall t, ~ member s t) -> Z = ivl_default).
Proof. exact (fun N H dbg s X => signs_mul_hull (value_type_laws N H) dbg s X). Qed.
Print Assumptions C07_signs_times_interval.
Example C07_signs_times_interval_example :
  exists Z, signs_mul_ivl true (sassign (sset_of negative_sign) zero_sign) (Ivl (i32 2) (i32 3)) = Ret Z /\ matches_ivl Z (Ivl (i32 (-3)) (i32 0)) = true.
Proof. apply ret_witness. vm_compute. reflexivity. Qed.

Theorem C07_signs_times_scalar : forall N, value_type N -> forall dbg (v : N) (s : sset), ok v ->
  (forall Z, scalar_mul_signs v s = Ret Z -> exists Z', signs_mul_ivl dbg s (ivl_of v) = Ret Z' /\ (Z = Z' \/ matches_ivl Z Z' = true))
  /\ (forall Z', signs_mul_ivl dbg s (ivl_of v) = Ret Z' -> exists Z, scalar_mul_signs v s = Ret Z).
Proof. exact (fun N H dbg v s => scalar_signs (value_type_laws N H) dbg v s). Qed.
Print Assumptions C07_signs_times_scalar.
Example C07_signs_times_scalar_example : ok (i32 4) /\ exists Z, scalar_mul_signs (i32 4) (sassign (sset_of negative_sign) positive_sign) = Ret Z /\ matches_ivl Z (Ivl (i32 (-4)) (i32 4)) = true.
Proof. split; [reflexivity|]. apply ret_witness. vm_compute. reflexivity. Qed.

(** ** C08 *)
Theorem C08_relational_exact : forall O, order_type O -> forall dbg (a b : arg O), aproper a -> aproper b ->
  (exists s, rel_eq dbg a b = Ret s /\ rel_exact o_eq s a b)
  /\ (exists s, rel_neq dbg a b = Ret s /\ rel_exact (fun x y => negb (o_eq x y)) s a b)
  /\ (exists s, rel_lt dbg a b = Ret s /\ rel_exact o_lt s a b)
  /\ (exists s, rel_leq dbg a b = Ret s /\ rel_exact o_le s a b)
  /\ (exists s, rel_gt dbg a b = Ret s /\ rel_exact (fun x y => o_lt y x) s a b)
  /\ (exists s, rel_geq dbg a b = Ret s /\ rel_exact (fun x y => o_le y x) s a b).
Proof. exact (fun O H dbg a b => relational_exact (order_type_laws O H) dbg a b). Qed.
Print Assumptions C08_relational_exact.
(** In debug builds relations of unassigned operands fail fast. *)
Theorem C08_unassigned_fails_fast : forall (O : ordty) (a b : arg O), aassigned a && aassigned b = false ->
  rel_eq true a b = FailFast /\ rel_neq true a b = FailFast /\ rel_lt true a b = FailFast
  /\ rel_leq true a b = FailFast /\ rel_gt true a b = FailFast /\ rel_geq true a b = FailFast.
Proof. exact (@relational_unassigned). Qed.
Print Assumptions C08_unassigned_fails_fast.
Example C08_example : aproper (Iv (Ivl (f64 1 0) (f64 3 0))) /\ aproper (Sc (f64 5 (-1)))
  /\ rel_lt true (Iv (Ivl (f64 1 0) (f64 3 0))) (Sc (f64 5 (-1))) = Ret bset_both
  /\ rel_eq true (Iv (Ivl (f64 1 0) (f64 2 0))) (Sc (f64 5 (-1))) = Ret (bset_of false)
  /\ aassigned (Iv (@ivl_default float64)) && aassigned (Sc (f64 1 0)) = false.
Proof. repeat split. Qed.

(** ** C09 *)
Theorem C09_order_axioms : forall O, order_type O -> forall dbg (a b : arg O), aproper a -> aproper b ->
  exists e n l le g ge, rel_eq dbg a b = Ret e /\ rel_neq dbg a b = Ret n /\ rel_lt dbg a b = Ret l /\ rel_leq dbg a b = Ret le
    /\ rel_gt dbg a b = Ret g /\ rel_geq dbg a b = Ret ge
    /\ bnot dbg e = Ret n /\ bnot dbg l = Ret ge /\ bnot dbg g = Ret le /\ bnot dbg le = Ret g /\ bnot dbg ge = Ret l
    /\ (member l true \/ member e true \/ member g true)
    /\ (~ member e false -> ~ member l true /\ ~ member g true)
    /\ (~ member l false -> ~ member e true /\ ~ member g true)
    /\ (member le true <-> member l true \/ member e true).
Proof. exact (fun O H dbg a b => relational_axioms (order_type_laws O H) dbg a b). Qed.
Print Assumptions C09_order_axioms.
Theorem C09_nan_vacuous : forall O, order_type O -> forall dbg (a b : arg O),
  (nan (alower a) /\ nan (aupper a)) \/ (nan (alower b) /\ nan (aupper b)) -> aassigned a = true -> aassigned b = true ->
  rel_lt dbg a b = Ret set_empty /\ rel_leq dbg a b = Ret set_empty /\ rel_gt dbg a b = Ret set_empty /\ rel_geq dbg a b = Ret set_empty
  /\ rel_eq dbg a b = Ret (bset_of false) /\ rel_neq dbg a b = Ret (bset_of true).
Proof. exact (fun O H dbg a b => relational_nan (order_type_laws O H) dbg a b). Qed.
Print Assumptions C09_nan_vacuous.
Example C09_example : aproper (Iv (Ivl (i32 1) (i32 3))) /\ aproper (Iv (Ivl (i32 3) (i32 4)))
  /\ rel_leq true (Iv (Ivl (i32 1) (i32 3))) (Iv (Ivl (i32 3) (i32 4))) = Ret (bset_of true)
  /\ nan (@n_nan float64) /\ aassigned (Iv (@ivl_of float64 n_nan)) = true.
Proof. repeat split. Qed.

(** ** C10 *)
Theorem C10_history_hull : forall N, value_type N -> forall ops : list (@iop N), Forall iop_legal ops ->
  exists Z, irun (@ivl_default N) ops = Ret Z
    /\ ((Z = ivl_default /\ forall v, ~ igiven_since_reset ops v) \/ is_hull (igiven_since_reset ops) Z).
Proof. exact (fun N H ops => run_holds (value_type_laws N H) ops). Qed.
Print Assumptions C10_history_hull.
Theorem C10_order_irrelevant : forall N, value_type N -> forall ops ops' : list (@iop N), Permutation ops ops' -> Forall iop_legal ops ->
  Forall (fun o => ~ iop_resets o) ops ->
  exists Z Z', irun (@ivl_default N) ops = Ret Z /\ irun (@ivl_default N) ops' = Ret Z' /\ same Z Z'.
Proof. exact (fun N H ops ops' => run_permute (value_type_laws N H) ops ops'). Qed.
Print Assumptions C10_order_irrelevant.
(** The hull is the smallest interval. *)
Theorem C10_hull_least : forall (O : ordty) (P : O -> Prop), order_type O -> forall Z, is_hull P Z -> forall W, (forall v, P v -> el W v) -> subset Z W.
Proof. exact (fun O P H Z => is_hull_least (order_type_laws O H) P Z). Qed.
Print Assumptions C10_hull_least.
Example C10_example : Forall (@iop_legal int32) [OAssignValue (i32 7); OResetIvl (Ivl (i32 1) (i32 2)); OAssignValue (i32 5)]
  /\ (exists Z, irun (@ivl_default int32) [OAssignValue (i32 7); OResetIvl (Ivl (i32 1) (i32 2)); OAssignValue (i32 5)] = Ret Z /\ matches_ivl Z (Ivl (i32 1) (i32 5)) = true).
Proof. split; [repeat constructor; discriminate|]. apply ret_witness. vm_compute. reflexivity. Qed.

(** ** C11 *)
Theorem C11_contains_value : forall (O : ordty) (X : ivl O) v, contains X v = true <-> o_le (lo X) v = true /\ o_le v (hi X) = true.
Proof. exact (@contains_iff). Qed.
Print Assumptions C11_contains_value.
Theorem C11_contains_interval : forall O, order_type O -> forall X Y : ivl O, proper X -> proper Y -> contains_ivl X Y = true <-> subset Y X.
Proof. exact (fun O H => contains_ivl_iff (order_type_laws O H)). Qed.
Print Assumptions C11_contains_interval.
Theorem C11_encloses : forall O, order_type O -> forall X Y : ivl O, proper Y ->
  (encloses_ivl X Y = true <-> forall v, el Y v -> o_lt (lo X) v = true /\ o_lt v (hi X) = true)
  /\ forall v, encloses X v = true <-> o_lt (lo X) v = true /\ o_lt v (hi X) = true.
Proof. exact (fun O H => encloses_both (order_type_laws O H)). Qed.
Print Assumptions C11_encloses.
Theorem C11_overlaps : forall O, order_type O -> forall X Y : ivl O, proper X -> proper Y -> overlaps_with X Y = true <-> exists v, el X v /\ el Y v.
Proof. exact (fun O H => overlaps_iff (order_type_laws O H)). Qed.
Print Assumptions C11_overlaps.
Theorem C11_matches : forall O, order_type O -> forall X Y : ivl O, proper X -> proper Y -> matches_ivl X Y = true <-> same X Y.
Proof. exact (fun O H => matches_ivl_iff (order_type_laws O H)). Qed.
Print Assumptions C11_matches.
Theorem C11_matches_value : forall O, order_type O -> forall (X : ivl O) v, matches X v = true <-> el X v /\ forall w, el X w -> same_value w v.
Proof. exact (fun O H => matches_iff (order_type_laws O H)). Qed.
Print Assumptions C11_matches_value.
Theorem C11_value : forall O, order_type O -> forall X : ivl O,
  (forall v, value X = Ret v <-> v = lo X /\ (exists w, el X w) /\ forall w w', el X w -> el X w' -> same_value w w')
  /\ ((forall v, value X <> Ret v) -> value X = FailFast).
Proof. exact (fun O H X => conj (value_ret_iff (order_type_laws O H) X) (@value_else O X)). Qed.
Print Assumptions C11_value.
Example C11_example : proper (Ivl (i32 1) (i32 4)) /\ proper (Ivl (i32 2) (i32 4)) /\ contains_ivl (Ivl (i32 1) (i32 4)) (Ivl (i32 2) (i32 4)) = true
  /\ encloses_ivl (Ivl (i32 1) (i32 4)) (Ivl (i32 2) (i32 4)) = false /\ overlaps_with (Ivl (i32 1) (i32 2)) (Ivl (i32 2) (i32 4)) = true
  /\ value (ivl_of (i32 4)) = Ret (i32 4) /\ value (Ivl (i32 1) (i32 4)) = FailFast.
Proof. repeat split. Qed.

(** ** C12 *)
Theorem C12_constructor : forall (O : ordty) (l u : O), (mk l u = FailFast <-> o_lt u l = true) /\ (o_lt u l = false -> mk l u = Ret (Ivl l u)).
Proof. exact (@ctor_failfast). Qed.
Print Assumptions C12_constructor.
Theorem C12_from_unordered_bounds : forall O, order_type O -> forall b1 b2 : O, exists Z, from_unordered_bounds b1 b2 = Ret Z /\ assigned Z = true
  /\ (ok b1 -> ok b2 -> is_hull (fun v => v = b1 \/ v = b2) Z).
Proof. exact (fun O H => fub_total (order_type_laws O H)). Qed.
Print Assumptions C12_from_unordered_bounds.
(** Missing compared with C12: intervals with exactly one NaN end point are excluded ([both]). *)
Theorem C12_no_inverted_partial : forall N, value_type N -> forall dbg (X : ivl N),
  obtainable dbg (fun l u => nan l <-> nan u) X -> assigned X = true \/ X = ivl_default.
Proof. exact (fun N H dbg X HX => good_assigned (value_type_laws N H) X (obtainable_good (value_type_laws N H) dbg X HX)). Qed.
Print Assumptions C12_no_inverted_partial.
(** Every interval of integers. *)
Theorem C12_no_inverted_int : forall w Hw dbg (X : ivl (int_num w Hw)),
  obtainable dbg (fun _ _ => True) X -> assigned X = true \/ X = ivl_default.
Proof. exact obtainable_int. Qed.
Print Assumptions C12_no_inverted_int.
(** The half-NaN interval{ NaN, 5. } can be constructed and assigned to an unassigned interval. *)
Theorem C12_no_inverted_refuted : exists X : ivl float64, obtainable true (fun _ _ => True) X /\ assigned X = false /\ X <> ivl_default.
Proof. exact half_nan_inverted. Qed.
Print Assumptions C12_no_inverted_refuted.
Example C12_example : mk (i32 3) (i32 1) = FailFast /\ obtainable true (fun l u => nan l <-> nan u) (Ivl (i32 1) (i32 3)).
Proof. split; [reflexivity|]. apply (ob_mk _ _ (i32 1) (i32 3)); [split; discriminate|reflexivity]. Qed.

(** ** C37, for intervals *)
Theorem C37_interval_if_else : forall N, value_type N -> forall (c : bset) (X Y : ivl N), proper X -> proper Y ->
  exists Z, iif_else c X Y = Ret Z
    /\ ((exists b, member c b) -> is_hull (fun v => (member c true /\ el X v) \/ (member c false /\ el Y v)) Z)
    /\ ((forall b, ~ member c b) -> Z = ivl_default).
Proof. exact (fun N H => if_else_hull (value_type_laws N H)). Qed.
Print Assumptions C37_interval_if_else.
Theorem C37_interval_certain : forall N, value_type N -> forall (c : bset) (X Y : ivl N), proper X -> proper Y ->
  (member c true -> ~ member c false -> exists Z, iif_else c X Y = Ret Z /\ same Z X)
  /\ (member c false -> ~ member c true -> exists Z, iif_else c X Y = Ret Z /\ same Z Y).
Proof. exact (fun N H => if_else_certain (value_type_laws N H)). Qed.
Print Assumptions C37_interval_certain.
Example C37_interval_example : proper (Ivl (i32 1) (i32 2)) /\ (exists Z, iif_else bset_both (Ivl (i32 1) (i32 2)) (Ivl (i32 4) (i32 5)) = Ret Z /\ matches_ivl Z (Ivl (i32 1) (i32 5)) = true).
Proof. split; [reflexivity|]. apply ret_witness. vm_compute. reflexivity. Qed.

(** ** C38 *)
Theorem C38_merge_hull : forall O, order_type O -> forall (X : ivl O) l, proper X -> Forall proper l ->
  exists Z, merge X l = Ret Z /\ is_hull (fun v => exists Y, In Y (X :: l) /\ el Y v) Z.
Proof. exact (fun O H => merge_hull (order_type_laws O H)). Qed.
Print Assumptions C38_merge_hull.
(** Missing compared with C38: the arguments must have a common element. *)
Theorem C38_intersect_partial : forall O, order_type O -> forall (X : ivl O) l, proper X -> Forall proper l -> (exists v, forall Y, In Y (X :: l) -> el Y v) ->
  exists Z, intersect X l = Ret Z /\ forall v, el Z v <-> forall Y, In Y (X :: l) -> el Y v.
Proof. exact (fun O H => intersect_common (order_type_laws O H)). Qed.
Print Assumptions C38_intersect_partial.
(** intersect(interval{ 0, 1 }, interval{ 2, 3 }) is the gap [1, 2], none of whose elements is common. *)
Theorem C38_intersect_refuted : exists (X Y Z : ivl int32) (v : int32), proper X /\ proper Y /\ intersect X [Y] = Ret Z /\ el Z v /\ ~ (el X v /\ el Y v).
Proof. exact intersect_gap. Qed.
Print Assumptions C38_intersect_refuted.
(** Two disjoint arguments: the numbers between them, end points included. *)
Theorem C38_intersect_disjoint : forall O, order_type O -> forall (X Y : ivl O), proper X -> proper Y -> ~ (exists v, el X v /\ el Y v) ->
  exists Z, intersect X [Y] = Ret Z /\ forall v, el Z v <->
    (forall x y, el X x -> el Y y -> o_le x v = true /\ o_le v y = true) \/ (forall x y, el X x -> el Y y -> o_le y v = true /\ o_le v x = true).
Proof. exact (fun O H => intersect_two (order_type_laws O H)). Qed.
Print Assumptions C38_intersect_disjoint.
Theorem C38_intersect_returns : forall O, order_type O -> forall (X : ivl O) l, proper X -> Forall proper l -> exists Z, intersect X l = Ret Z /\ proper Z.
Proof. exact (fun O H => intersect_returns (order_type_laws O H)). Qed.
Print Assumptions C38_intersect_returns.
(** Without a common element the result depends on the order of the arguments: [0, 1], [4, 5], [2, 3]. *)
Theorem C38_intersect_order_refuted : exists (X Y W Z Z' : ivl int32) (v : int32), proper X /\ proper Y /\ proper W
  /\ intersect X [Y; W] = Ret Z /\ intersect X [W; Y] = Ret Z' /\ el Z' v /\ ~ el Z v.
Proof. exact intersect_order. Qed.
Print Assumptions C38_intersect_order_refuted.
Example C38_example : (exists Z, merge (Ivl (i32 1) (i32 2)) [Ivl (i32 4) (i32 5); Ivl (i32 0) (i32 2)] = Ret Z /\ matches_ivl Z (Ivl (i32 0) (i32 5)) = true)
  /\ (exists Z, intersect (Ivl (i32 1) (i32 4)) [Ivl (i32 2) (i32 5); Ivl (i32 0) (i32 3)] = Ret Z /\ matches_ivl Z (Ivl (i32 2) (i32 3)) = true)
  /\ (exists Z, intersect (Ivl (i32 0) (i32 1)) [Ivl (i32 4) (i32 5)] = Ret Z /\ matches_ivl Z (Ivl (i32 1) (i32 4)) = true).
Proof. split; [|split]; apply ret_witness; vm_compute; reflexivity. Qed.

(** ** C39 *)
Theorem C39_assign_once : forall (O : ordty) (X Y : ivl O), (assigned X = false -> free_assign X Y = Ret Y) /\ (assigned X = true -> free_assign X Y = FailFast).
Proof. exact (@free_assign_spec). Qed.
Print Assumptions C39_assign_once.
Theorem C39_assign_partial : forall O, order_type O -> forall X Y : ivl O,
  (proper X -> proper Y -> exists Z, free_assign_partial X Y = Ret Z /\ is_hull (fun v => el X v \/ el Y v) Z)
  /\ (assigned Y = false -> free_assign_partial X Y = FailFast).
Proof. exact (fun O H X Y => conj (iassign_hull (order_type_laws O H) X Y) (@iassign_unassigned O X Y)). Qed.
Print Assumptions C39_assign_partial.
Theorem C39_reset : forall (O : ordty) (X Y : ivl O), free_reset X Y = Y.
Proof. exact free_reset_eq. Qed.
Print Assumptions C39_reset.
Theorem C39_branches : forall N, value_type N -> forall l : list (bset * ivl N), Forall (fun p => proper (snd p)) l ->
  exists Z, run_branches (@ivl_default N) l = Ret Z
    /\ ((exists c Y, In (c, Y) l /\ member c true) -> is_hull (fun v => exists c Y, In (c, Y) l /\ member c true /\ el Y v) Z)
    /\ ((forall c Y, In (c, Y) l -> ~ member c true) -> Z = ivl_default).
Proof. exact (fun N H => run_branches_default (value_type_laws N H)). Qed.
Print Assumptions C39_branches.
Example C39_example : exists Z, run_branches (@ivl_default int32) [(bset_both, Ivl (i32 1) (i32 2)); (bset_of false, Ivl (i32 8) (i32 9)); (bset_of true, Ivl (i32 4) (i32 5))] = Ret Z
  /\ matches_ivl Z (Ivl (i32 1) (i32 5)) = true.
Proof. apply ret_witness. vm_compute. reflexivity. Qed.

(** ** C52, for intervals *)
Theorem C52_interval_output : forall O, order_type O -> forall dbg (X : ivl O), proper X ->
  exists l, iprint dbg X = Ret l /\
    ((forall v w, el X v -> el X w -> same_value v w) -> l = [TNum (lo X)])
    /\ ((exists v w, el X v /\ el X w /\ ~ same_value v w) -> l = [TLBracket; TNum (lo X); TCommaSpace; TNum (hi X); TRBracket]).
Proof. exact (fun O H => iprint_proper (order_type_laws O H)). Qed.
Print Assumptions C52_interval_output.
Theorem C52_unassigned_output : forall (O : ordty) (X : ivl O), assigned X = false -> iprint true X = FailFast.
Proof. exact (@iprint_unassigned). Qed.
Print Assumptions C52_unassigned_output.
Example C52_interval_example : proper (Ivl (i32 1) (i32 4)) /\ iprint true (Ivl (i32 1) (i32 4)) = Ret [TLBracket; TNum (i32 1); TCommaSpace; TNum (i32 4); TRBracket]
  /\ iprint true (@ivl_default int32) = FailFast.
Proof. repeat split. Qed.
