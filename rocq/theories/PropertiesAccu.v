(** Rounding errors of whole expressions (C80). *)
From Coq Require Import Reals ZArith Bool List.
From Flocq Require Import Core BinarySingleNaN.
From Verif Require Import Outcome Num IntervalModel FloatNum FloatMath RoundSpec MachineSpec MathModel LangModel LangSpec UseSpec SinMachineProofs AccuSpec AccuProofs2 AccuProofs3.
Import ListNotations.
Open Scope R_scope.

(** ** C80 *)
(** The exact value at real numbers between the end points exists, and lies between the computed end points up to the bound of a running error analysis. *)
Theorem C80_accuracy : forall prec emax Hp He (L : libm (binary_float prec emax)) acc dbg (V : list (arg (float_num prec emax Hp He))) (rs : list R) (e : expr (float_num prec emax Hp He)) a,
  Forall finite_arg V -> Forall2 within V rs -> analysable L acc dbg V e -> ieval (Some (float_math prec emax Hp He L)) dbg V e = Ret a ->
  finite_arg a /\ 0 <= error_bound L acc dbg V e /\ exists v, exact rs e v /\ near (error_bound L acc dbg V e) a v.
Proof. exact expression_accuracy. Qed.
Print Assumptions C80_accuracy.
(** The scalar program. *)
Theorem C80_scalar : forall prec emax Hp He (L : libm (binary_float prec emax)) acc dbg (vs : list (float_num prec emax Hp He)) (e : expr (float_num prec emax Hp He)) (w : float_num prec emax Hp He),
  Forall (fun v => is_finite (v : binary_float prec emax) = true) vs -> analysable L acc dbg (map Sc vs) e -> seval (Some (float_math prec emax Hp He L)) dbg vs e = Ret w ->
  exists v, exact (map (fun v => B2R (v : binary_float prec emax)) vs) e v /\ Rabs (B2R (w : binary_float prec emax) - v) <= error_bound L acc dbg (map Sc vs) e.
Proof. exact scalar_accuracy. Qed.
Print Assumptions C80_scalar.
(** If each variable is mentioned once, each end point is an exact value up to the bound, so that nothing is overestimated except for rounding. *)
Theorem C80_tight : forall prec emax Hp He (L : libm (binary_float prec emax)) acc dbg (Xs : list (ivl (float_num prec emax Hp He))) (e : expr (float_num prec emax Hp He)) a,
  Forall finite_arg (map Iv Xs) -> plain e = true -> single_use e -> efuns (monotone (Some (float_math prec emax Hp He L))) e -> analysable L acc dbg (map Iv Xs) e ->
  ieval (Some (float_math prec emax Hp He L)) dbg (map Iv Xs) e = Ret a ->
  (exists rs v, Forall2 within (map Iv Xs) rs /\ exact rs e v /\ Rabs (B2R (alower a) - v) <= error_bound L acc dbg (map Iv Xs) e)
  /\ (exists rs v, Forall2 within (map Iv Xs) rs /\ exact rs e v /\ Rabs (B2R (aupper a) - v) <= error_bound L acc dbg (map Iv Xs) e).
Proof. exact single_use_accuracy. Qed.
Print Assumptions C80_tight.
(** The bound is attained: 1 + 2^-53 is computed as 1, and the bound is 2^-53. *)
Theorem C80_attained : forall (L : libm (binary_float 53 1024)) acc dbg, exists a v,
  Forall finite_arg tie_box /\ analysable L acc dbg tie_box sum2 /\ ieval (Some (float_math 53 1024 prec_gt_0_53 prec_lt_emax_64 L)) dbg tie_box sum2 = Ret a
  /\ exact [1; bpow radix2 (-53)] sum2 v /\ Forall2 within tie_box [1; bpow radix2 (-53)]
  /\ 0 < error_bound L acc dbg tie_box sum2 /\ v = B2R (aupper a : binary_float 53 1024) + error_bound L acc dbg tie_box sum2.
Proof. exact attained. Qed.
Print Assumptions C80_attained.

(** [x / y - square(z)] for [x] in [[1, 2]], [y] in [[3, 4]], [z] in [[-1, 1/2]]: all hypotheses of [C80_accuracy] and [C80_tight], for any C library. *)
Example C80_example : forall (L : libm (binary_float 53 1024)) acc dbg,
  Forall finite_arg (map Iv accu_box) /\ analysable L acc dbg (map Iv accu_box) quotient_minus_square
  /\ plain quotient_minus_square = true /\ single_use quotient_minus_square /\ efuns (monotone (Some (float_math 53 1024 prec_gt_0_53 prec_lt_emax_64 L))) quotient_minus_square
  /\ exists a, ieval (Some (float_math 53 1024 prec_gt_0_53 prec_lt_emax_64 L)) dbg (map Iv accu_box) quotient_minus_square = Ret a.
Proof. exact accu_example. Qed.
(** [atan(log(x))] for [x] in [[1/2, 1]] with a correctly rounded C library. *)
Example C80_lib_example : forall dbg (NL := nearest_libm 53 1024 prec_gt_0_53 prec_lt_emax_64) (acc := fun _ : unop => bpow radix2 (-53) * (4 + 1)),
  Forall finite_arg [Iv half_to_one] /\ analysable NL acc dbg [Iv half_to_one] atan_log
  /\ exists a, ieval (Some (float_math 53 1024 prec_gt_0_53 prec_lt_emax_64 NL)) dbg [Iv half_to_one] atan_log = Ret a.
Proof. exact accu_lib_example. Qed.
