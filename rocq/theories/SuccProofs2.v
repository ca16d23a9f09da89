(** Doubles for which constraints applied one after the other fail although their conjunction does not (C83). *)
From Coq Require Import Bool List Arith ZArith.
From Verif Require Import Outcome SetModel Spec SetProofs Num NumLaws IntervalModel IvlSpec IvlProofs IntNum FloatNum IterModel ValueTypes IvlWrap Refute
  ConstrainModel CondSpec ConstrainProofs ConstrainProofs2 ConstrainProofs5 ConstrainProofs6 ConstrainWrap ConstrainRefute ConjSpec ConstrainProofs7 SuccSpec SuccProofs.
Import ListNotations.
Open Scope nat_scope.

Definition X01 : ivl float64 := Ivl (f64 0 0) (f64 1 0).
(** x <= 0 and x > 0 for the object number 0. *)
Definition not_above : cform float64 := GRel RLe (TVar 0 X01) (TVal (Sc (f64 0 0))).
Definition above : cform float64 := GRel RGt (TVar 0 X01) (TVal (Sc (f64 0 0))).

Lemma above_narrows : narrows 0 X01 not_above /\ narrows 0 X01 above.
Proof.
  split.
  all: split; [split; [split; [reflexivity|reflexivity]|exact I]|].
  all: split; [reflexivity|]; split; [reflexivity|]; split; [intros _; split; [discriminate|reflexivity]|]; split; [reflexivity|]; split; [reflexivity|exact I].
Qed.
Lemma above_possible : possible not_above true /\ possible above true.
Proof. split; apply possible_rel; [exists (f64 0 0), (f64 0 0)|exists (f64 1 0), (f64 0 0)]; (split; [split; reflexivity|split; [split; reflexivity|reflexivity]]). Qed.
Lemma still_fails dbg : exists (f g : cform float64) X Y W, proper X /\ narrows 0 X f /\ narrows 0 X g /\ possible f true /\ possible g true
  /\ constrain_by dbg 0 X (GAnd f g) = Ret W /\ constrain_by dbg 0 X f = Ret Y /\ constrain_by dbg 0 Y (rebind 0 Y g) = FailFast
  /\ possible (GAnd f g) true /\ constrain_by dbg 0 W (rebind 0 W (GAnd f g)) = FailFast.
Proof.
  destruct above_narrows as [N1 N2], above_possible as [P1 P2].
  pose proof (order_type_laws float64 (ot_num _ vt_float64)) as HO.
  destruct (ret_witness (constrain_by dbg 0 X01 not_above) (fun Y => match constrain_by dbg 0 Y (rebind 0 Y above) with FailFast => true | _ => false end)) as (Y & EY & FY); [destruct dbg; vm_compute; reflexivity|].
  destruct (ret_witness (constrain_by dbg 0 X01 (GAnd not_above above)) (fun Y => match constrain_by dbg 0 Y (rebind 0 Y (GAnd not_above above)) with FailFast => true | _ => false end)) as (W & EW & FW); [destruct dbg; vm_compute; reflexivity|].
  exists not_above, above, X01, Y, W. repeat (split; [first [assumption|reflexivity]|]). split.
  { destruct (constrain_by dbg 0 Y (rebind 0 Y above)); first [reflexivity|discriminate]. }
  split; [apply possible_and; exists true, true; auto|]. destruct (constrain_by dbg 0 W (rebind 0 W (GAnd not_above above))); first [reflexivity|discriminate].
Qed.
