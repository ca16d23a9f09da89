(** C84: rounding errors of expressions with conditions. *)
From Coq Require Import Reals ZArith Bool List.
From Flocq Require Import Core BinarySingleNaN.
From Verif Require Import Outcome SetModel Spec Num IntervalModel ConstrainModel CondSpec FloatNum FloatMath RoundSpec MachineSpec MathModel LangModel AccuSpec AccuProofs3 NumericFacts DecideSpec DecideProofs DecideProofs2.
Import ListNotations.
Open Scope R_scope.

(** The value in real arithmetic, with decisions taken in real arithmetic, lies between the computed end points up to the bound. *)
Theorem C84_accuracy : forall prec emax Hp He (L : libm (binary_float prec emax)) acc dbg (V : list (arg (float_num prec emax Hp He))) (rs : list R) (e : expr (float_num prec emax Hp He)) a,
  Forall finite_arg V -> Forall2 within V rs -> clear_cut L acc dbg V e -> ieval (Some (float_math prec emax Hp He L)) dbg V e = Ret a ->
  finite_arg a /\ 0 <= branch_bound L acc dbg V e /\ exists v, rvalue rs e v /\ near (branch_bound L acc dbg V e) a v.
Proof. exact choice_accuracy. Qed.
Print Assumptions C84_accuracy.
(** The truth value in real arithmetic is among those reported. *)
Theorem C84_decision : forall prec emax Hp He (L : libm (binary_float prec emax)) acc dbg (V : list (arg (float_num prec emax Hp He))) (rs : list R) (t : test (float_num prec emax Hp He)) c,
  Forall finite_arg V -> Forall2 within V rs -> tclear_cut L acc dbg V t -> itest (Some (float_math prec emax Hp He L)) dbg V t = Ret c ->
  exists b : bool, rtruth rs t b /\ member (cset c) b.
Proof. exact decision. Qed.
Print Assumptions C84_decision.
(** A certain answer is right in real arithmetic. *)
Theorem C84_certain : forall prec emax Hp He (L : libm (binary_float prec emax)) acc dbg (V : list (arg (float_num prec emax Hp He))) (rs : list R) (t : test (float_num prec emax Hp He)) c (b : bool),
  Forall finite_arg V -> Forall2 within V rs -> tclear_cut L acc dbg V t -> itest (Some (float_math prec emax Hp He L)) dbg V t = Ret c -> (forall d, member (cset c) d -> d = b) ->
  rtruth rs t b /\ ~ rtruth rs t (negb b).
Proof. exact certain. Qed.
Print Assumptions C84_certain.
(** The scalar program. *)
Theorem C84_scalar : forall prec emax Hp He (L : libm (binary_float prec emax)) acc dbg (vs : list (float_num prec emax Hp He)) (e : expr (float_num prec emax Hp He)) (w : float_num prec emax Hp He),
  Forall (fun v => is_finite (v : binary_float prec emax) = true) vs -> clear_cut L acc dbg (map Sc vs) e -> seval (Some (float_math prec emax Hp He L)) dbg vs e = Ret w ->
  exists v, rvalue (map (fun v => B2R (v : binary_float prec emax)) vs) e v /\ Rabs (B2R (w : binary_float prec emax) - v) <= branch_bound L acc dbg (map Sc vs) e.
Proof. exact scalar_decision. Qed.
Print Assumptions C84_scalar.
(** The margin is needed: 1 + 2^-53 > 1 holds for the real numbers and is reported as certainly false, so that [if_else] returns the number of the wrong branch, whatever the numbers are. *)
Theorem C84_margin_refuted : forall (L : libm (binary_float 53 1024)) acc dbg,
  Forall finite_arg tie_box /\ Forall2 within tie_box [1; bpow radix2 (-53)]
  /\ clear_cut L acc dbg tie_box sum2 /\ clear_cut L acc dbg tie_box (ELit (f64 1 0))
  /\ itest (Some (float_math 53 1024 prec_gt_0_53 prec_lt_emax_64 L)) dbg tie_box sum_above_one = Ret (CBool false) /\ rtruth [1; bpow radix2 (-53)] sum_above_one true
  /\ forall p q : float64, ieval (Some (float_math 53 1024 prec_gt_0_53 prec_lt_emax_64 L)) dbg tie_box (EIf sum_above_one (ELit p) (ELit q)) = Ret (Sc q)
    /\ rvalue [1; bpow radix2 (-53)] (EIf sum_above_one (ELit p) (ELit q)) (B2R (p : binary_float 53 1024)).
Proof. exact wrong_side. Qed.
Print Assumptions C84_margin_refuted.

(** [if_else(x + y < 5 && !(x * y >= 100), x / y, y - x)] for [x] in [[1, 2]], [y] in [[3, 4]]: all hypotheses, one comparison undecided and one certain. *)
Example C84_example : forall (L : libm (binary_float 53 1024)) acc dbg,
  Forall finite_arg choose_box /\ Forall2 within choose_box [B2R (f64 1 0); B2R (f64 3 0)] /\ clear_cut L acc dbg choose_box choose
  /\ exists a, ieval (Some (float_math 53 1024 prec_gt_0_53 prec_lt_emax_64 L)) dbg choose_box choose = Ret a.
Proof. exact choose_example. Qed.
