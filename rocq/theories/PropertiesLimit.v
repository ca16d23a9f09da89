(** Properties of the subdivision of inputs in exact real arithmetic (C78). *)
From Coq Require Import Reals Bool List Lra.
From Verif Require Import Outcome SetModel Spec Num NumLaws XReal RealNum RealMath IntervalModel IvlSpec ConstrainModel CondSpec MathModel MathSpec LangModel LangSpec TrigProofs LimitSpec LimitProofs2 LimitProofs3.
Import ListNotations.
Open Scope R_scope.

(** ** C78 *)
(** The width of the result goes to zero with the width of the inputs. *)
Theorem C78_width : forall dbg Xs' (e : expr real_num) a', Forall proper Xs' -> continuous e = true ->
  eclean (Some real_math) dbg (map Iv Xs') e -> ebounded dbg (map Iv Xs') e -> ieval (Some real_math) dbg (map Iv Xs') e = Ret a' ->
  forall eps, 0 < eps -> exists delta, 0 < delta /\ forall Xs, Forall proper Xs -> Forall2 subset Xs Xs' -> Forall (fun X => narrow delta (Iv X)) Xs ->
    exists a, ieval (Some real_math) dbg (map Iv Xs) e = Ret a /\ asubset a a' /\ narrow eps a.
Proof. exact expression_converges. Qed.
Print Assumptions C78_width.
(** For every subdivision that is fine enough, the results of the boxes together contain every value of the expression and are within [eps] of these values. *)
Theorem C78_range : forall dbg Xs' (e : expr real_num) a', Forall proper Xs' -> continuous e = true ->
  eclean (Some real_math) dbg (map Iv Xs') e -> ebounded dbg (map Iv Xs') e -> ieval (Some real_math) dbg (map Iv Xs') e = Ret a' ->
  forall eps, 0 < eps -> exists delta, 0 < delta /\ forall Bs : list (list (ivl real_num)),
    (forall B, In B Bs -> Forall proper B /\ Forall2 subset B Xs' /\ Forall (fun X => narrow delta (Iv X)) B) ->
    (forall xs, Forall2 el Xs' xs -> exists B, In B Bs /\ Forall2 el B xs) ->
    (forall xs, Forall2 el Xs' xs -> exists r B a, seval (Some real_math) dbg xs e = Ret (XFin r : real_num) /\ In B Bs /\ ieval (Some real_math) dbg (map Iv B) e = Ret a /\ ael a (XFin r))
    /\ forall B, In B Bs -> exists a, ieval (Some real_math) dbg (map Iv B) e = Ret a /\ bounded a
      /\ forall r, ael a (XFin r) -> exists xs r', Forall2 el Xs' xs /\ seval (Some real_math) dbg xs e = Ret (XFin r' : real_num) /\ Rabs (r - r') <= eps.
Proof. exact subdivision_converges. Qed.
Print Assumptions C78_range.
(** There are such subdivisions. *)
Theorem C78_boxes : forall delta (Xs : list (ivl real_num)), 0 < delta -> Forall proper Xs -> Forall (fun X => bounded (Iv X)) Xs -> exists Bs : list (list (ivl real_num)),
  (forall B, In B Bs -> Forall proper B /\ Forall2 subset B Xs /\ Forall (fun X => narrow delta (Iv X)) B)
  /\ (forall xs, Forall2 el Xs xs -> exists B, In B Bs /\ Forall2 el B xs).
Proof. exact boxes. Qed.
Print Assumptions C78_boxes.
(** [floor(x)] and [if_else(x < 0, 0, 1)] jump: inside [[-1, 1]] there are inputs of any width whose result is wider than 1/2. *)
Theorem C78_jump_refuted : forall dbg e, e = EUn UFloor (EVar 0%nat) \/ e = EIf (QRel RLt (EVar 0%nat) (ELit (XFin 0 : real_num))) (ELit (XFin 0 : real_num)) (ELit (XFin 1 : real_num)) ->
  forall delta, 0 < delta -> exists X Z : ivl real_num, proper X /\ subset X (RI (-1) 1) /\ narrow delta (Iv X)
    /\ ieval (Some real_math) dbg [Iv X] e = Ret (Iv Z) /\ ~ narrow (1 / 2) (Iv Z).
Proof. exact jump_refuted. Qed.
Print Assumptions C78_jump_refuted.

(** [exp(x) - x] on [[0, 1]]: the interval result is [[0, e]], the values are [[1, e - 1]]. *)
Example C78_example : Forall proper [RI 0 1] /\ continuous exp_minus = true
  /\ eclean (Some real_math) true (map Iv [RI 0 1]) exp_minus /\ ebounded true (map Iv [RI 0 1]) exp_minus
  /\ ieval (Some real_math) true (map Iv [RI 0 1]) exp_minus = Ret (Iv (RI (exp 0 - 1) (exp 1 - 0))).
Proof.
  split; [constructor; [apply real_proper; lra|constructor]|]. split; [reflexivity|]. split; [apply exp_minus_ok|]. split; [apply exp_minus_ok|apply exp_minus_eval].
Qed.
