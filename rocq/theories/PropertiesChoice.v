(** Conditions and [if_else] in expressions that mention each variable at most once (C82). *)
From Coq Require Import Bool List Arith ZArith Lia.
From Verif Require Import Outcome SetModel Spec Num NumLaws FloatNum IntervalModel IvlSpec IntNum IntProofs ValueTypes IvlWrap ConstrainModel CondSpec
  MathModel MathSpec LangModel LangSpec LangProofs2 IsoProofs4 UseSpec ChoiceSpec ChoiceProofs ChoiceProofs2.
Import ListNotations.

(** ** C82 *)
(** The set of truth values of a condition is exactly the set of truth values of the scalar program. *)
Theorem C82_condition : forall N M, prog_type N M -> forall dbg (Xs : list (ivl N)) (t : test N) c, Forall proper Xs -> tplain t = true -> NoDup (tvars t) ->
  tclean M dbg (map Iv Xs) t -> tfuns (monotone M) t -> itest M dbg (map Iv Xs) t = Ret c ->
  forall b : bool, member (cset c) b <-> tvalues M dbg Xs t b.
Proof. exact (fun N M H dbg Xs t c P Pl Su Cl Fu E => test_exact H dbg Xs t c P Pl Su Cl Fu E). Qed.
Print Assumptions C82_condition.
(** Expressions with [if_else]: the result is the smallest interval containing the values. *)
Theorem C82_if_else : forall N M, prog_type N M -> forall dbg (Xs : list (ivl N)) (e : expr N) a, Forall proper Xs -> eplain e = true -> NoDup (evars e) ->
  eclean M dbg (map Iv Xs) e -> efuns (monotone M) e -> ieval M dbg (map Iv Xs) e = Ret a ->
  (forall v, values M dbg Xs e v -> ael a v)
  /\ (exists v, values M dbg Xs e v /\ o_eq v (alower a) = true) /\ (exists v, values M dbg Xs e v /\ o_eq v (aupper a) = true).
Proof. exact (fun N M H dbg Xs e a P Pl Su Cl Fu E => choice_bounds H dbg Xs e a P Pl Su Cl Fu E). Qed.
Print Assumptions C82_if_else.
(** [2*x == 1] and [x < x] for the integers [x] in [[0, 1]] are reported as possibly true. *)
Theorem C82_equality_refuted : forall dbg (t : test int32), t = QRel REq (EBin BMul (ELit (i32 2)) (EVar 0)) (ELit (i32 1)) \/ t = QRel RLt (EVar 0) (EVar 0) ->
  tclean None dbg (map Iv [zi 0 1]) t /\ exists c, itest None dbg (map Iv [zi 0 1]) t = Ret c /\ member (cset c) true /\ ~ tvalues None dbg [zi 0 1] t true.
Proof. exact never_true. Qed.
Print Assumptions C82_equality_refuted.

(** [x + 1 < y & !(z >= 5)], and [if_else(x + 1 < y & !(z >= 5), square(u), -v)]. *)
Definition two_bounds : test float64 := QAnd (QRel RLt (EBin BAdd (EVar 0) (ELit (f64 1 0))) (EVar 1)) (QNot (QRel RGe (EVar 2) (ELit (f64 5 0)))).
Definition chosen : expr float64 := EIf two_bounds (EUn USquare (EVar 3)) (EUn UNeg (EVar 4)).
Definition box5 : list (ivl float64) := [Ivl (f64 0 0) (f64 3 0); Ivl (f64 2 0) (f64 3 0); Ivl (f64 4 0) (f64 6 0); Ivl (f64 (-2) 0) (f64 1 0); Ivl (f64 1 0) (f64 2 0)].
Example C82_example : prog_type float64 None /\ Forall proper box5 /\ tplain two_bounds = true /\ NoDup (tvars two_bounds) /\ tclean None true (map Iv box5) two_bounds /\ tfuns (N := float64) (monotone (N := float64) None) two_bounds
  /\ eplain chosen = true /\ NoDup (evars chosen) /\ eclean None true (map Iv box5) chosen /\ efuns (N := float64) (monotone (N := float64) None) chosen
  /\ (exists c, itest None true (map Iv box5) two_bounds = Ret c /\ bcontains (cset c) true && bcontains (cset c) false = true)
  /\ exists a, ieval None true (map Iv box5) chosen = Ret a /\ o_eq (alower a) (f64 (-2) 0) && o_eq (aupper a) (f64 4 0) = true.
Proof.
  split; [exact (pt_value float64 vt_float64)|]. split; [repeat constructor|]. split; [reflexivity|]. split; [repeat constructor; cbn; intuition discriminate|].
  split; [apply (clean_ok (value_type_laws _ vt_float64)); vm_compute; reflexivity|]. split; [cbn; repeat split; discriminate|].
  split; [reflexivity|]. split; [repeat constructor; cbn; intuition discriminate|].
  split; [apply (clean_ok (value_type_laws _ vt_float64)); vm_compute; reflexivity|]. split; [cbn; repeat split; discriminate|].
  split; apply ret_witness; vm_compute; reflexivity.
Qed.
