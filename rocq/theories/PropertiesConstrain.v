(** Properties of conditions and [constrain] (C30-C36). *)
From Coq Require Import Bool List Arith ZArith.
From Verif Require Import Outcome SetModel Spec Num NumLaws IntervalModel IvlSpec IvlProofs IntNum FloatNum IterModel ValueTypes IvlWrap Refute
  ConstrainModel CondSpec ConstrainProofs ConstrainProofs2 ConstrainProofs5 ConstrainProofs6 ConstrainWrap ConstrainRefute MixedModel MixedProofs.
Import ListNotations.
Open Scope nat_scope.

(** ** C30 *)
Theorem C30_condition_value : forall O, order_type O -> forall dbg (f : cform O), legal f -> exists c, build dbg f = Ret c
  /\ (forall rho b, inside rho f -> truth rho f b -> member (cset c) b) /\ (forall b : bool, member (cset c) b -> possible f b)
  /\ exists c', build dbg (GNot f) = Ret c' /\ forall b : bool, member (cset c') b <-> member (cset c) (negb b).
Proof. exact (fun O H dbg f => condition_value (order_type_laws O H) dbg f). Qed.
Print Assumptions C30_condition_value.
Example C30_condition_value_example : legal f_contra /\ inside rho3 f_contra /\ truth rho3 f_contra true.
Proof. exact (conj (proj1 contra) (conj (proj1 (proj2 (proj2 (proj2 contra)))) (proj1 (proj2 (proj2 (proj2 (proj2 contra))))))). Qed.

Theorem C30_double_negation : forall O, order_type O -> forall dbg (f : cform O), legal f -> comparisons f = true -> build dbg (GNot (GNot f)) = build dbg f.
Proof. exact (fun O H dbg f => double_negation (order_type_laws O H) dbg f). Qed.
Print Assumptions C30_double_negation.
Theorem C30_negation_inwards : forall O, order_type O -> forall dbg (f : cform O), legal f -> comparisons f = true -> build dbg (GNot f) = build dbg (nnf false f).
Proof. exact (fun O H dbg f => negation_inwards (order_type_laws O H) dbg f). Qed.
Print Assumptions C30_negation_inwards.
Example C30_negation_example : legal f_flag /\ comparisons f_flag = true
  /\ nnf false f_flag = GOr (GRel RGe (iv 0 X05) (sc 1)) (GAnd (GRel RGe (iv 1 X05) (sc 2)) (GRel RGe (iv 1 X05) (sc 3))).
Proof. split; [exact (proj1 and_order)|split; reflexivity]. Qed.

(** ** C31: [X] is the present value of the object [x], which may be narrower than the one stored in the condition. *)
Theorem C31_constrain_sound : forall O, order_type O -> forall dbg x (f : cform O) (X : ivl O) rho,
  legal f -> unmixed f = true -> conjunctive (nnf true f) = true -> mentions x f = true ->
  inside rho f -> el X (rho x) -> truth rho f true -> exists Z, constrain_by dbg x X f = Ret Z /\ el Z (rho x).
Proof. exact (fun O H dbg x f X rho => constrain_sound (order_type_laws O H) dbg x f X rho). Qed.
Print Assumptions C31_constrain_sound.
Example C31_constrain_sound_example :
  legal f_both /\ unmixed f_both = true /\ conjunctive (nnf true f_both) = true /\ mentions 0 f_both = true /\ inside rho41 f_both /\ el X05 (rho41 0) /\ truth rho41 f_both true
  /\ exists Z, constrain_by true 0 X05 f_both = Ret Z /\ matches_ivl Z (Ivl (i32 1) (i32 4)) = true.
Proof. split; [split; sets|]. do 3 (split; [reflexivity|]). split; [sets|]. split; [sets|]. split; [exact f_both_true|]. apply ret_witness. vm_compute. reflexivity. Qed.
Theorem C31_negated_mixture_refuted : exists (f : cform int32) X rho, legal f /\ conjunctive (nnf true f) = true /\ mentions 0 f = true /\ occurs_as 0 X f
  /\ inside rho f /\ truth rho f true /\ constrain_by true 0 X f = FailFast.
Proof. exact mixture_refuted. Qed.
Print Assumptions C31_negated_mixture_refuted.

(** ** C32 *)
Theorem C32_constrain_tight : forall O, order_type O -> forall dbg x R (s t : term O) (X Z : ivl O),
  legal (GRel R s t) -> proper X -> occurs_as x X (GRel R s t) -> R <> RNe -> xorb (tmentions x s) (tmentions x t) = true ->
  constrain_by dbg x X (GRel R s t) = Ret Z -> forall v, el Z v <-> solution x (if o_disc O then R else rel_weak R) s t v.
Proof. exact (fun O H dbg x R s t X Z => constrain_tight (order_type_laws O H) dbg x R s t X Z). Qed.
Print Assumptions C32_constrain_tight.
Theorem C32_not_equal : forall O, order_type O -> forall dbg x (s t : term O) (X Z : ivl O),
  legal (GRel RNe s t) -> proper X -> occurs_as x X (GRel RNe s t) -> o_disc O = true -> xorb (tmentions x s) (tmentions x t) = true ->
  constrain_by dbg x X (GRel RNe s t) = Ret Z -> is_hull (solution x RNe s t) Z.
Proof. exact (fun O H dbg x s t X Z => constrain_ne_hull (order_type_laws O H) dbg x s t X Z). Qed.
Print Assumptions C32_not_equal.
Example C32_example : legal (GRel RGt (sc 4) (iv 0 X05)) /\ occurs_as 0 X05 (GRel RGt (sc 4) (iv 0 X05)) /\ xorb (tmentions 0 (sc 4)) (tmentions 0 (iv 0 X05)) = true
  /\ (exists Z, constrain_by true 0 X05 (GRel RGt (sc 4) (iv 0 X05)) = Ret Z /\ matches_ivl Z (Ivl (i32 0) (i32 3)) = true)
  /\ (exists Z, constrain_by true 0 X05 (GRel RNe (iv 0 X05) (sc 0)) = Ret Z /\ matches_ivl Z (Ivl (i32 1) (i32 5)) = true).
Proof. split; [split; sets|]. split; [sets|]. split; [reflexivity|]. split; apply ret_witness; vm_compute; reflexivity. Qed.

(** ** C33 *)
Theorem C33_disjunction_partial : forall O, order_type O -> forall dbg x (f : cform O) (X : ivl O) rho,
  legal f -> unmixed f = true -> tame x false (nnf true f) -> mentions x f = true -> occurs_as x X f ->
  inside rho f -> truth rho f true -> exists Z, constrain_by dbg x X f = Ret Z /\ el Z (rho x).
Proof. exact (fun O H dbg x f X rho => constrain_sound_tame (order_type_laws O H) dbg x f X rho). Qed.
Print Assumptions C33_disjunction_partial.
Example C33_disjunction_example : legal f_tame /\ unmixed f_tame = true /\ tame 0 false (nnf true f_tame) /\ mentions 0 f_tame = true /\ occurs_as 0 X05 f_tame
  /\ inside rho41 f_tame /\ truth rho41 f_tame true /\ exists Z, constrain_by true 0 X05 f_tame = Ret Z /\ contains Z (i32 4) = true.
Proof.
  split; [split; sets|]. split; [reflexivity|]. split; [right; repeat split|]. split; [reflexivity|]. split; [sets; intros E; discriminate E|]. split; [sets|].
  split; [exact f_tame_true|]. apply ret_witness. vm_compute. reflexivity.
Qed.
Theorem C33_other_disjunct_refuted : exists (f : cform int32) X rho, legal f /\ mentions 0 f = true /\ occurs_as 0 X f /\ inside rho f /\ truth rho f true
  /\ exists Z, constrain_by true 0 X f = Ret Z /\ ~ el Z (rho 0).
Proof. exact (ex_intro _ _ (ex_intro _ _ (ex_intro _ _ or_other))). Qed.
Print Assumptions C33_other_disjunct_refuted.
Theorem C33_order_of_conjuncts_refuted : exists (f g : cform int32) X rho, legal (GAnd f g) /\ mentions 0 (GAnd f g) = true /\ occurs_as 0 X (GAnd f g)
  /\ inside rho (GAnd f g) /\ truth rho (GAnd f g) true /\ constrain_by true 0 X (GAnd f g) = FailFast /\ exists Z, constrain_by true 0 X (GAnd g f) = Ret Z.
Proof. exact (ex_intro _ _ (ex_intro _ _ (ex_intro _ _ (ex_intro _ _ and_order)))). Qed.
Print Assumptions C33_order_of_conjuncts_refuted.
Theorem C33_contradictory_disjunct_refuted : exists (f : cform int32) X rho, legal f /\ mentions 0 f = true /\ occurs_as 0 X f /\ inside rho f /\ truth rho f true
  /\ constrain_by true 0 X f = FailFast /\ constrain_by false 0 X f = FailFast.
Proof. exact (ex_intro _ _ (ex_intro _ _ (ex_intro _ _ contra))). Qed.
Print Assumptions C33_contradictory_disjunct_refuted.

(** ** C34 *)
Theorem C34_constrain_within : forall O, order_type O -> forall dbg x (f : cform O) (X Z : ivl O), legal f -> proper X -> occurs_as x X f ->
  constrain_by dbg x X f = Ret Z -> proper Z /\ subset Z X.
Proof. exact (fun O H dbg x f X Z => constrain_within (order_type_laws O H) dbg x f X Z). Qed.
Print Assumptions C34_constrain_within.
Theorem C34_other_object_rejected : forall O, order_type O -> forall dbg x (f : cform O) (X : ivl O), mentions x f = false -> legal f -> constrain_by dbg x X f = FailFast.
Proof. exact (fun O H dbg x f X => constrain_other (order_type_laws O H) dbg x f X). Qed.
Print Assumptions C34_other_object_rejected.
Example C34_example : legal f_flag /\ proper X05 /\ occurs_as 0 X05 f_flag' /\ (exists Z, constrain_by true 0 X05 f_flag' = Ret Z) /\ mentions 2 f_flag = false.
Proof. split; [exact (proj1 and_order)|]. split; [reflexivity|]. split; [sets; intros E; discriminate E|]. split; [apply and_order|reflexivity]. Qed.
(** The hypothesis that [X] is the value stored in the condition is needed. *)
Theorem C34_narrowed_meanwhile_refuted : exists (f : cform int32) X Y, legal f /\ proper Y /\ subset Y X /\ exists Z, constrain_by true 0 Y f = Ret Z /\ ~ subset Z Y.
Proof. exact (ex_intro _ _ (ex_intro _ _ (ex_intro _ _ stale))). Qed.
Print Assumptions C34_narrowed_meanwhile_refuted.

(** ** C35 *)
Theorem C35_comparison_failfast : forall O, order_type O -> forall dbg x R (s t : term O) (X : ivl O),
  legal (GRel R s t) -> proper X -> mentions x (GRel R s t) = true -> occurs_as x X (GRel R s t) ->
  (possible (GRel R s t) true -> exists Z, constrain_by dbg x X (GRel R s t) = Ret Z)
  /\ (~ possible (GRel R s t) true -> constrain_by dbg x X (GRel R s t) = FailFast).
Proof. exact (fun O H dbg x R s t X => constrain_rel (order_type_laws O H) dbg x R s t X). Qed.
Print Assumptions C35_comparison_failfast.
Example C35_example : legal (GRel RLt (iv 0 X05) (sc 0)) /\ mentions 0 (GRel RLt (iv 0 X05) (sc 0)) = true /\ occurs_as 0 X05 (GRel RLt (iv 0 X05) (sc 0))
  /\ constrain_by true 0 X05 (GRel RLt (iv 0 X05) (sc 0)) = FailFast /\ constrain_by false 0 X05 (GRel RLt (iv 0 X05) (sc 0)) = FailFast.
Proof. split; [split; sets|]. split; [reflexivity|]. split; [sets|]. split; reflexivity. Qed.
(** For a conjunction the same claim is false. *)
Theorem C35_conjunction_refuted : exists (f : cform int32) X, legal f /\ mentions 0 f = true /\ occurs_as 0 X f /\ ~ possible f true /\ constrain_by true 0 X f = Ret X.
Proof. exact (ex_intro _ _ (ex_intro _ _ ignored)). Qed.
Print Assumptions C35_conjunction_refuted.

(** ** C36: floating-point intervals and integer operands of any width *)
Theorem C36_integer_bound_partial : forall w Hw prec emax Hp He dbg R left (X : ivl (float_num prec emax Hp He)) (y : arg (int_num w Hw)) a n m,
  let conv := int_to_float w prec emax Hp He : int_num w Hw -> float_num prec emax Hp He in
  el X a -> ael y n -> mixed_holds conv R left a n = true -> mixed_step R left n = Ret m -> mixed_holds conv (rel_weak R) left a m = true ->
  exists Z, mixed_constrain conv dbg R left X y = Ret Z /\ el Z a.
Proof. exact mixed_strict_F. Qed.
Print Assumptions C36_integer_bound_partial.
(** For the other four comparisons the claim holds without the restriction. *)
Theorem C36_weak_comparisons : forall w Hw prec emax Hp He dbg R left (X : ivl (float_num prec emax Hp He)) (y : arg (int_num w Hw)) a n,
  let conv := int_to_float w prec emax Hp He : int_num w Hw -> float_num prec emax Hp He in
  el X a -> ael y n -> R <> RLt -> R <> RGt -> mixed_holds conv R left a n = true ->
  exists Z, mixed_constrain conv dbg R left X y = Ret Z /\ el Z a.
Proof. exact mixed_weak_F. Qed.
Print Assumptions C36_weak_comparisons.
Example C36_example : el X010 (f64 9 (-1)) /\ mixed_holds int_to_double RLe true (f64 9 (-1)) (i32 5) = true
  /\ mixed_holds int_to_double RGt true (f64 9 (-1)) (i32 3) = true /\ mixed_step RGt true (i32 3) = Ret (i32 4) /\ mixed_holds int_to_double RGe true (f64 9 (-1)) (i32 4) = true.
Proof. repeat split; vm_compute; reflexivity. Qed.
Theorem C36_refuted : exists (X Z : ivl float64) (n : int32) (a : float64), el X a /\ o_lt a (int_to_double n) = true
  /\ mixed_constrain int_to_double true RLt true X (Sc n) = Ret Z /\ ~ el Z a.
Proof. exact mixed_drops. Qed.
Print Assumptions C36_refuted.
Theorem C36_failfast_refuted : exists (X : ivl float64) (n : int32) (a : float64), el X a /\ o_lt a (int_to_double n) = true
  /\ mixed_constrain int_to_double true RLt true X (Sc n) = FailFast /\ mixed_constrain int_to_double false RLt true X (Sc n) = FailFast.
Proof. exact mixed_fails. Qed.
Print Assumptions C36_failfast_refuted.
Theorem C36_overflow_refuted : exists (X : ivl float64) (n : int32) (a : float64), el X a /\ o_lt a (int_to_double n) = true
  /\ mixed_constrain int_to_double true RLt true X (Sc n) = UB.
Proof. exact mixed_ub. Qed.
Print Assumptions C36_overflow_refuted.
