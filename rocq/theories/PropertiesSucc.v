(** Properties of constraints applied one after the other (C83). *)
From Coq Require Import Bool List Arith ZArith.
From Verif Require Import Outcome SetModel Spec SetProofs Num NumLaws IntervalModel IvlSpec IvlProofs IntNum FloatNum IterModel ValueTypes IvlWrap Refute
  ConstrainModel CondSpec ConstrainProofs ConstrainProofs2 ConstrainProofs5 ConstrainProofs6 ConstrainWrap ConstrainRefute ConjSpec ConstrainProofs7 SuccSpec SuccProofs SuccProofs2.
Import ListNotations.
Open Scope nat_scope.

(** ** C83 *)
Theorem C83_successive : forall O, order_type O -> forall dbg x (X Y : ivl O) (f g : cform O),
  proper X -> narrows x X f -> narrows x X g -> possible f true -> constrain_by dbg x X f = Ret Y -> possible (rebind x Y g) true ->
  (exists Z W, constrain_by dbg x Y (rebind x Y g) = Ret Z /\ constrain_by dbg x X (GAnd f g) = Ret W /\ same Z W)
  \/ (constrain_by dbg x Y (rebind x Y g) = FailFast /\ constrain_by dbg x X (GAnd f g) = FailFast).
Proof. exact (fun O H dbg x X Y f g => successive (order_type_laws O H) dbg x X Y f g). Qed.
Print Assumptions C83_successive.
Theorem C83_order : forall O, order_type O -> forall dbg x (X Y1 Y2 Z1 Z2 : ivl O) (f g : cform O),
  proper X -> narrows x X f -> narrows x X g -> possible f true -> possible g true ->
  constrain_by dbg x X f = Ret Y1 -> possible (rebind x Y1 g) true -> constrain_by dbg x Y1 (rebind x Y1 g) = Ret Z1 ->
  constrain_by dbg x X g = Ret Y2 -> possible (rebind x Y2 f) true -> constrain_by dbg x Y2 (rebind x Y2 f) = Ret Z2 -> same Z1 Z2.
Proof. exact (fun O H dbg x X Y1 Y2 Z1 Z2 f g => either_order (order_type_laws O H) dbg x X Y1 Y2 Z1 Z2 f g). Qed.
Print Assumptions C83_order.
Theorem C83_repeated : forall O, order_type O -> forall dbg x (X Y : ivl O) (f : cform O),
  proper X -> narrows x X f -> possible f true -> constrain_by dbg x X f = Ret Y -> possible (rebind x Y f) true ->
  exists Z, constrain_by dbg x Y (rebind x Y f) = Ret Z /\ same Z Y.
Proof. exact (fun O H dbg x X Y f => repeated (order_type_laws O H) dbg x X Y f). Qed.
Print Assumptions C83_repeated.
Theorem C83_narrower : forall O, order_type O -> forall dbg x (X X' Z Z' : ivl O) (f : cform O),
  proper X -> proper X' -> (forall v, el X' v -> el X v) -> narrows x X f -> possible (rebind x X' f) true ->
  constrain_by dbg x X f = Ret Z -> constrain_by dbg x X' (rebind x X' f) = Ret Z' -> forall v, el Z' v <-> el X' v /\ el Z v.
Proof. exact (fun O H dbg x X X' Z Z' f => narrower (order_type_laws O H) dbg x X X' Z Z' f). Qed.
Print Assumptions C83_narrower.
(** x >= 1, and not (x >= 4), for x in [0, 5]: [1, 5], [0, 3], and both together [1, 3]. *)
Definition from_one : cform int32 := GRel RGe (iv 0 X05) (sc 1).
Definition below_four : cform int32 := GNot (GRel RGe (iv 0 X05) (sc 4)).
Example C83_example : proper X05 /\ narrows 0 X05 from_one /\ narrows 0 X05 below_four /\ possible from_one true /\ possible below_four true
  /\ exists Y1, constrain_by true 0 X05 from_one = Ret Y1 /\ matches_ivl Y1 (Ivl (i32 1) (i32 5)) = true
  /\ exists Z1, constrain_by true 0 Y1 (rebind 0 Y1 below_four) = Ret Z1 /\ matches_ivl Z1 (Ivl (i32 1) (i32 3)) = true
  /\ exists Y2, constrain_by true 0 X05 below_four = Ret Y2 /\ matches_ivl Y2 (Ivl (i32 0) (i32 3)) = true
  /\ exists Z2, constrain_by true 0 Y2 (rebind 0 Y2 from_one) = Ret Z2 /\ matches_ivl Z2 (Ivl (i32 1) (i32 3)) = true
  /\ possible (rebind 0 Y1 below_four) true /\ possible (rebind 0 Y2 from_one) true.
Proof.
  pose proof (order_type_laws int32 (ot_num _ vt_int32)) as HO.
  split; [reflexivity|].
  assert (N1 : narrows 0 X05 from_one) by (split; [split; sets|]; split; [reflexivity|]; split; [reflexivity|]; split; [intros _; split; [discriminate|reflexivity]|]; split; [reflexivity|]; sets).
  assert (N2 : narrows 0 X05 below_four) by (split; [split; sets|]; split; [reflexivity|]; split; [reflexivity|]; split; [intros _; split; [discriminate|reflexivity]|]; split; [reflexivity|]; sets).
  assert (P1 : possible from_one true) by (apply possible_rel; exists (i32 4), (i32 1); split; [split; reflexivity|split; [split; reflexivity|reflexivity]]).
  assert (P2 : possible below_four true) by (apply possible_not; apply possible_rel; exists (i32 1), (i32 4); split; [split; reflexivity|split; [split; reflexivity|reflexivity]]).
  split; [exact N1|]. split; [exact N2|]. split; [exact P1|]. split; [exact P2|].
  destruct (ret_witness (constrain_by true 0 X05 from_one) (fun Y => matches_ivl Y (Ivl (i32 1) (i32 5)) && match constrain_by true 0 Y (rebind 0 Y below_four) with Ret Z => matches_ivl Z (Ivl (i32 1) (i32 3)) | _ => false end)) as (Y1 & E1 & K1); [vm_compute; reflexivity|].
  destruct (ret_witness (constrain_by true 0 X05 below_four) (fun Y => matches_ivl Y (Ivl (i32 0) (i32 3)) && match constrain_by true 0 Y (rebind 0 Y from_one) with Ret Z => matches_ivl Z (Ivl (i32 1) (i32 3)) | _ => false end)) as (Y2 & E2 & K2); [vm_compute; reflexivity|].
  apply andb_prop in K1 as [A1 B1], K2 as [A2 B2]. exists Y1. split; [exact E1|]. split; [exact A1|].
  destruct (ret_witness _ _ B1) as (Z1 & F1 & C1). exists Z1. split; [exact F1|]. split; [exact C1|]. exists Y2. split; [exact E2|]. split; [exact A2|].
  destruct (ret_witness _ _ B2) as (Z2 & F2 & C2). exists Z2. split; [exact F2|]. split; [exact C2|].
  destruct (narrows_proper HO true 0 X05 _ Y1 eq_refl N1 E1) as [Q1 _]. destruct (narrows_proper HO true 0 X05 _ Y2 eq_refl N2 E2) as [Q2 _].
  assert (V : el Y1 (i32 2) /\ el Y2 (i32 2)).
  { split; [apply (proj2 (proj2 (narrows_exact HO true 0 X05 _ eq_refl N1 P1)) _ E1)|apply (proj2 (proj2 (narrows_exact HO true 0 X05 _ eq_refl N2 P2)) _ E2)]; (split; [split; reflexivity|]); intros _; left; (split; [reflexivity|]; split; [split; reflexivity|]); [exists (i32 1)|exists (i32 4)]; (split; [split; reflexivity|reflexivity]). }
  destruct V as [V1 V2]. split; [apply possible_not|]; apply possible_rel; [exists (i32 2), (i32 4)|exists (i32 2), (i32 1)]; (split; [assumption|]; split; [split; reflexivity|reflexivity]).
Qed.

(** Where values have neighbours, the conditions that are left possible need not be checked again. *)
Theorem C83_discrete : forall O, order_type O -> o_disc O = true -> forall dbg x (X W : ivl O) (f g : cform O),
  proper X -> narrows x X f -> narrows x X g -> possible f true -> possible g true -> constrain_by dbg x X (GAnd f g) = Ret W ->
  exists Y Z, constrain_by dbg x X f = Ret Y /\ constrain_by dbg x Y (rebind x Y g) = Ret Z /\ same Z W.
Proof. exact (fun O H D dbg x X W f g => successive_discrete (order_type_laws O H) dbg x X W f g D). Qed.
Print Assumptions C83_discrete.
Theorem C83_repeated_discrete : forall O, order_type O -> o_disc O = true -> forall dbg x (X Y : ivl O) (f : cform O),
  proper X -> narrows x X f -> possible f true -> constrain_by dbg x X f = Ret Y ->
  exists Z, constrain_by dbg x Y (rebind x Y f) = Ret Z /\ same Z Y.
Proof. exact (fun O H D dbg x X Y f => repeated_discrete (order_type_laws O H) dbg x X Y f D). Qed.
Print Assumptions C83_repeated_discrete.
Example C83_discrete_example : order_type int32 /\ o_disc int32 = true /\ order_type (iter_ordty 3) /\ o_disc (iter_ordty 3) = true
  /\ exists W, constrain_by true 0 X05 (GAnd from_one below_four) = Ret W /\ matches_ivl W (Ivl (i32 1) (i32 3)) = true.
Proof. split; [apply ot_num, vt_int32|]. split; [reflexivity|]. split; [apply ot_iter|]. split; [reflexivity|]. apply ret_witness. vm_compute. reflexivity. Qed.
(** For doubles: x in [0, 1] constrained by x <= 0 and x > 0 gives [0, 0], but x > 0 alone, or the same condition once more, is rejected then. *)
Theorem C83_continuous_refuted : forall dbg, exists (f g : cform float64) X Y W, proper X /\ narrows 0 X f /\ narrows 0 X g /\ possible f true /\ possible g true
  /\ constrain_by dbg 0 X (GAnd f g) = Ret W /\ constrain_by dbg 0 X f = Ret Y /\ constrain_by dbg 0 Y (rebind 0 Y g) = FailFast
  /\ possible (GAnd f g) true /\ constrain_by dbg 0 W (rebind 0 W (GAnd f g)) = FailFast.
Proof. exact still_fails. Qed.
Print Assumptions C83_continuous_refuted.
