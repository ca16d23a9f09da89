(** Properties of [constrain] with combinations of comparisons (C81). *)
From Coq Require Import Bool List Arith ZArith.
From Verif Require Import Outcome SetModel Spec Num NumLaws IntervalModel IvlSpec IvlProofs IntNum FloatNum IterModel ValueTypes IvlWrap Refute
  ConstrainModel CondSpec ConstrainProofs ConstrainProofs2 ConstrainProofs5 ConstrainProofs6 ConstrainWrap ConstrainRefute ConjSpec ConstrainProofs7.
Import ListNotations.
Open Scope nat_scope.

(** ** C81 *)
Theorem C81_conjunction : forall O, order_type O -> forall dbg x (f : cform O) (X : ivl O),
  legal f -> proper X -> unmixed f = true -> conjunctive (nnf true f) = true -> one_sided x (nnf true f) -> mentions x f = true -> occurs_as x X f -> possible f true ->
  ((exists v, el X v /\ meets x (nnf true f) v) -> exists Z, constrain_by dbg x X f = Ret Z)
  /\ ((~ exists v, el X v /\ meets x (nnf true f) v) -> constrain_by dbg x X f = FailFast)
  /\ forall Z, constrain_by dbg x X f = Ret Z -> forall v, el Z v <-> el X v /\ meets x (nnf true f) v.
Proof. exact (fun O H dbg x f X => conjunction_exact (order_type_laws O H) dbg x f X). Qed.
Print Assumptions C81_conjunction.
(** Not (x < 1 or x >= 5) for x in [0, 5] gives [1, 4]; x >= 4 and x <= 2 fails although the condition may be true for independent elements. *)
Definition f_range : cform int32 := GNot (GOr (GRel RLt (iv 0 X05) (sc 1)) (GRel RGe (iv 0 X05) (sc 5))).
Definition f_empty : cform int32 := GAnd (GRel RGe (iv 0 X05) (sc 4)) (GRel RLe (iv 0 X05) (sc 2)).
Example C81_conjunction_example :
  (legal f_range /\ proper X05 /\ unmixed f_range = true /\ conjunctive (nnf true f_range) = true /\ one_sided 0 (nnf true f_range) /\ mentions 0 f_range = true /\ occurs_as 0 X05 f_range /\ possible f_range true
    /\ exists Z, constrain_by true 0 X05 f_range = Ret Z /\ matches_ivl Z (Ivl (i32 1) (i32 4)) = true)
  /\ (legal f_empty /\ one_sided 0 (nnf true f_empty) /\ occurs_as 0 X05 f_empty /\ possible f_empty true /\ constrain_by false 0 X05 f_empty = FailFast).
Proof.
  split.
  - split; [split; sets|]. split; [reflexivity|]. split; [reflexivity|]. split; [reflexivity|]. split; [split; intros _; split; [discriminate|reflexivity|discriminate|reflexivity]|].
    split; [reflexivity|]. split; [sets|]. split; [|apply ret_witness; vm_compute; reflexivity].
    apply possible_not. apply possible_or. exists false, false. split; [|split; [|reflexivity]]; apply possible_rel; [exists (i32 4), (i32 1)|exists (i32 4), (i32 5)]; (split; [split; reflexivity|split; [split; reflexivity|reflexivity]]).
  - split; [split; sets|]. split; [split; intros _; split; [discriminate|reflexivity|discriminate|reflexivity]|]. split; [sets|]. split; [|reflexivity].
    apply possible_and. exists true, true. split; [|split; [|reflexivity]]; apply possible_rel; [exists (i32 4), (i32 4)|exists (i32 1), (i32 2)]; (split; [split; reflexivity|split; [split; reflexivity|reflexivity]]).
Qed.

Theorem C81_disjunction : forall O, order_type O -> forall dbg x (f g : cform O) (X Z : ivl O),
  legal (GOr f g) -> proper X -> conjunctive f = true -> conjunctive g = true -> one_sided x (GOr f g) -> mentions x f = true -> mentions x g = true ->
  occurs_as x X (GOr f g) -> constrain_by dbg x X (GOr f g) = Ret Z ->
  is_hull (fun v => el X v /\ ((possible f true /\ meets x f v) \/ (possible g true /\ meets x g v))) Z.
Proof. exact (fun O H dbg x f g X Z => disjunction_exact (order_type_laws O H) dbg x f g X Z). Qed.
Print Assumptions C81_disjunction.
Theorem C81_disjunction_failfast : forall O, order_type O -> forall dbg x (f g : cform O) (X : ivl O),
  legal (GOr f g) -> proper X -> conjunctive f = true -> conjunctive g = true -> one_sided x (GOr f g) -> mentions x f = true -> mentions x g = true ->
  occurs_as x X (GOr f g) -> single f \/ possible f true -> single g \/ possible g true ->
  let can := possible (GOr f g) true /\ (possible f true -> exists v, el X v /\ meets x f v) /\ (possible g true -> exists v, el X v /\ meets x g v) in
  (can -> exists Z, constrain_by dbg x X (GOr f g) = Ret Z) /\ (~ can -> constrain_by dbg x X (GOr f g) = FailFast).
Proof. exact (fun O H dbg x f g X => disjunction_outcome (order_type_laws O H) dbg x f g X). Qed.
Print Assumptions C81_disjunction_failfast.
(** (1 <= x and x < 3) or x > 9 for x in [0, 5] gives [1, 2]; (x >= 4 and x <= 2) or x == 5 fails. *)
Definition f_low : cform int32 := GAnd (GRel RGe (iv 0 X05) (sc 1)) (GRel RLt (iv 0 X05) (sc 3)).
Definition f_high : cform int32 := GRel RGt (iv 0 X05) (sc 9).
Definition f_five : cform int32 := GRel REq (iv 0 X05) (sc 5).
Example C81_disjunction_example :
  (legal (GOr f_low f_high) /\ conjunctive f_low = true /\ conjunctive f_high = true /\ one_sided 0 (GOr f_low f_high) /\ mentions 0 f_low = true /\ mentions 0 f_high = true /\ occurs_as 0 X05 (GOr f_low f_high)
    /\ possible f_low true /\ single f_high /\ exists Z, constrain_by true 0 X05 (GOr f_low f_high) = Ret Z /\ matches_ivl Z (Ivl (i32 1) (i32 2)) = true)
  /\ (legal (GOr f_empty f_five) /\ occurs_as 0 X05 (GOr f_empty f_five) /\ possible f_empty true /\ single f_five /\ constrain_by false 0 X05 (GOr f_empty f_five) = FailFast).
Proof.
  split.
  - split; [split; sets|]. split; [reflexivity|]. split; [reflexivity|]. split; [repeat split; intros; discriminate || reflexivity|].
    split; [reflexivity|]. split; [reflexivity|]. split; [sets|]. split; [|split; [exact I|apply ret_witness; vm_compute; reflexivity]].
    apply possible_and. exists true, true. split; [|split; [|reflexivity]]; apply possible_rel; [exists (i32 4), (i32 1)|exists (i32 1), (i32 3)]; (split; [split; reflexivity|split; [split; reflexivity|reflexivity]]).
  - split; [split; sets|]. split; [sets|]. split; [exact (proj1 (proj2 (proj2 (proj2 (proj2 C81_conjunction_example)))))|]. split; [exact I|reflexivity].
Qed.
