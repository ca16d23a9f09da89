(** Properties of expressions that mention each variable at most once (C79). *)
From Coq Require Import Reals Bool List Arith ZArith Lia Lra.
From Verif Require Import Outcome SetModel Spec Num NumLaws XReal RealNum RealMath FloatNum IntervalModel IvlSpec IntNum IntProofs ValueTypes IvlWrap ConstrainModel CondSpec
  MathModel MathSpec LangModel LangSpec LangProofs2 IsoProofs4 TrigProofs LimitSpec UseSpec UseProofs UseProofs2 UseProofs3.
Import ListNotations.

(** ** C79 *)
(** If each variable is mentioned once, the result is the smallest interval containing the values of the expression, in machine arithmetic too. *)
Theorem C79_hull : forall N M, prog_type N M -> forall dbg (Xs : list (ivl N)) (e : expr N) a, Forall proper Xs -> plain e = true -> single_use e ->
  eclean M dbg (map Iv Xs) e -> efuns (monotone M) e -> ieval M dbg (map Iv Xs) e = Ret a ->
  (forall v, values M dbg Xs e v -> ael a v)
  /\ (exists v, values M dbg Xs e v /\ o_eq v (alower a) = true) /\ (exists v, values M dbg Xs e v /\ o_eq v (aupper a) = true).
Proof. exact (fun N M H dbg Xs e a P Pl Su Cl Fu E => single_use_bounds H dbg Xs e a P Pl Su Cl Fu E). Qed.
Print Assumptions C79_hull.
(** In exact arithmetic the result consists of the values, also with [square] and [abs] of expressions. *)
Theorem C79_range : forall dbg (Xs : list (ivl real_num)) (e : expr real_num) a, Forall proper Xs -> continuous e = true -> single_use e ->
  eclean (Some real_math) dbg (map Iv Xs) e -> ebounded dbg (map Iv Xs) e -> ieval (Some real_math) dbg (map Iv Xs) e = Ret a ->
  forall v : real_num, ael a v <-> values (Some real_math) dbg Xs e v.
Proof. exact single_use_range. Qed.
Print Assumptions C79_range.
(** [x - x] for [x] in [[0, 1]] gives [[-1, 1]], although the value is always 0; and for integers [square(2*x - 1)] gives [[0, 1]], although the value is always 1. *)
Theorem C79_repeated_refuted : forall dbg (e : expr int32),
  e = EBin BSub (EVar 0) (EVar 0) \/ e = EUn USquare (EBin BSub (EBin BMul (ELit (i32 2)) (EVar 0)) (ELit (i32 1))) ->
  eclean None dbg (map Iv [zi 0 1]) e /\ exists Z, ieval None dbg (map Iv [zi 0 1]) e = Ret (Iv Z) /\ ~ is_hull (values None dbg [zi 0 1] e) Z.
Proof. exact wider. Qed.
Print Assumptions C79_repeated_refuted.

(** [(square(x) - y) / z + 2] with double-precision numbers. *)
Definition once_each : expr float64 := EBin BAdd (EBin BDiv (EBin BSub (EUn USquare (EVar 0)) (EVar 1)) (EVar 2)) (ELit (f64 2 0)).
Example C79_example : prog_type float64 None /\ plain once_each = true /\ single_use once_each /\ efuns (N := float64) (monotone (N := float64) None) once_each
  /\ Forall proper [Ivl (f64 (-3) 0) (f64 2 0); Ivl (f64 1 0) (f64 5 0); Ivl (f64 1 0) (f64 3 0) : ivl float64]
  /\ eclean None true (map Iv [Ivl (f64 (-3) 0) (f64 2 0); Ivl (f64 1 0) (f64 5 0); Ivl (f64 1 0) (f64 3 0) : ivl float64]) once_each
  /\ exists a, ieval None true (map Iv [Ivl (f64 (-3) 0) (f64 2 0); Ivl (f64 1 0) (f64 5 0); Ivl (f64 1 0) (f64 3 0) : ivl float64]) once_each = Ret a
    /\ o_eq (alower a) (f64 (-3) 0) && o_eq (aupper a) (f64 10 0) = true.
Proof.
  split; [exact (pt_value float64 vt_float64)|]. split; [reflexivity|]. split; [repeat constructor; cbn; intuition discriminate|]. split; [cbn; repeat split; discriminate|].
  split; [repeat constructor|]. split; [apply (clean_ok (value_type_laws _ vt_float64)); vm_compute; reflexivity|]. apply ret_witness. vm_compute. reflexivity.
Qed.
(** [exp(x) - y] on the unit square: the values are exactly [[0, e]]. *)
Example C79_exact_example : Forall proper unit_square /\ continuous exp_minus_y = true /\ single_use exp_minus_y
  /\ eclean (Some real_math) true (map Iv unit_square) exp_minus_y /\ ebounded true (map Iv unit_square) exp_minus_y
  /\ ieval (Some real_math) true (map Iv unit_square) exp_minus_y = Ret (Iv (RI (exp 0 - 1) (exp 1 - 0))).
Proof.
  split; [repeat constructor; apply real_proper; lra|]. split; [reflexivity|]. split; [repeat constructor; cbn; intuition discriminate|].
  destruct (exp_minus_y_ok true) as (A & B & C). auto.
Qed.
