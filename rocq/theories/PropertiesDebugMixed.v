(** Debug and release builds: operations with operands of different value types (C53, C54). *)
From Coq Require Import Bool ZArith Lia.
From Flocq Require Import BinarySingleNaN.
From Verif Require Import Outcome SetModel Num IntervalModel IntNum ConstrainModel CondSpec MathModel MathSpec FloatNum FloatMath DebugProofs MixedModel MixedArithModel MixedBlendModel MixedPowModel DebugMixedProofs.

(** ** C53 *)
Theorem C53_mixed_arithmetic : forall (L R T : num) (cl : L -> T) (cr : R -> T) x y,
  agrees_or_fails (mixed_add cl cr true x y) (mixed_add cl cr false x y) /\ agrees_or_fails (mixed_sub cl cr true x y) (mixed_sub cl cr false x y)
  /\ agrees_or_fails (mixed_mul cl cr true x y) (mixed_mul cl cr false x y) /\ agrees_or_fails (mixed_div cl cr true x y) (mixed_div cl cr false x y).
Proof. exact (@af_mixed_arith). Qed.
Print Assumptions C53_mixed_arithmetic.
Theorem C53_mixed_relations : forall (L R T : num) (cl : L -> T) (cr : R -> T) x y,
  agrees_or_fails (mixed_eq cl cr true x y) (mixed_eq cl cr false x y) /\ agrees_or_fails (mixed_neq cl cr true x y) (mixed_neq cl cr false x y)
  /\ agrees_or_fails (mixed_lt cl cr true x y) (mixed_lt cl cr false x y) /\ agrees_or_fails (mixed_leq cl cr true x y) (mixed_leq cl cr false x y).
Proof. exact (@af_mixed_rel). Qed.
Print Assumptions C53_mixed_relations.
Theorem C53_mixed_constrain : forall (O I : ordty) (conv : I -> O) R left X y, agrees_or_fails (mixed_constrain conv true R left X y) (mixed_constrain conv false R left X y).
Proof. exact (@af_mixed_constrain). Qed.
Print Assumptions C53_mixed_constrain.
Theorem C53_mixed_pow : forall w Hw (N : num) (M : math N) (c : int_num w Hw -> N) x y, agrees_or_fails (mixed_pow M c true x y) (mixed_pow M c false x y).
Proof. exact (@af_mixed_pow). Qed.
Print Assumptions C53_mixed_pow.
Theorem C53_mixed_weights : forall (L R T : num) (cl : L -> T) (cr : R -> T) M x y, fp_math T M -> agrees_or_fails (mixed_weights cl cr true x y) (mixed_weights cl cr false x y).
Proof. exact (@af_mixed_weights). Qed.
Print Assumptions C53_mixed_weights.
Theorem C53_mixed_fractions : forall (W T : num) (c : W -> T) f x y, agrees_or_fails (mixed_blend_fractions c true f x y) (mixed_blend_fractions c false f x y).
Proof. exact (@af_mixed_fractions). Qed.
Print Assumptions C53_mixed_fractions.
(** blend_linear: floating-point weights.  Missing: integer weights, refuted below. *)
Theorem C53_mixed_linear_partial : forall (W T : num) (c : W -> T) M a b x y, fp_math W M -> agrees_or_fails (mixed_blend_linear c true a b x y) (mixed_blend_linear c false a b x y).
Proof. exact (@af_mixed_linear). Qed.
Print Assumptions C53_mixed_linear_partial.
(** The debug check adds the weights, which may overflow; the release build only divides them. *)
Theorem C53_mixed_linear_refuted : exists (a b : arg int32) (x y : arg float64), mixed_blend_linear int_to_double true a b x y = UB /\ exists Z, mixed_blend_linear int_to_double false a b x y = Ret Z.
Proof. exact mixed_linear_debug_ub. Qed.
Print Assumptions C53_mixed_linear_refuted.
Example C53_mixed_example :
  (forall L, fp_math float32 (float_math 24 128 prec_gt_0_24 prec_lt_emax_32 L)) /\ mixed_add int_to_double float_to_double true (Iv (Ivl (i32 3) (i32 1))) (Sc (B754_zero false : float32)) = FailFast.
Proof. split; [intros L; apply fm_float|reflexivity]. Qed.

(** ** C54 *)
Theorem C54_mixed : forall (L R T : num) (cl : L -> T) (cr : R -> T) x y, unassigned x \/ unassigned y ->
  mixed_add cl cr true x y = FailFast /\ mixed_sub cl cr true x y = FailFast /\ mixed_mul cl cr true x y = FailFast /\ mixed_div cl cr true x y = FailFast
  /\ mixed_eq cl cr true x y = FailFast /\ mixed_neq cl cr true x y = FailFast /\ mixed_lt cl cr true x y = FailFast /\ mixed_leq cl cr true x y = FailFast /\ mixed_weights cl cr true x y = FailFast.
Proof. exact (@rj_mixed). Qed.
Print Assumptions C54_mixed.
Theorem C54_mixed_constrain : forall (O I : ordty) (conv : I -> O) R left X y, unassigned (Iv X) \/ unassigned y -> mixed_constrain conv true R left X y = FailFast.
Proof. exact (@rj_mixed_constrain). Qed.
Print Assumptions C54_mixed_constrain.
Theorem C54_mixed_blend : forall (W T : num) (c : W -> T) a b x y, (unassigned a \/ unassigned x \/ unassigned y -> mixed_blend_fractions c true a x y = FailFast)
  /\ (unassigned a \/ unassigned b \/ unassigned x \/ unassigned y -> mixed_blend_linear c true a b x y = FailFast).
Proof. exact (@rj_mixed_blend). Qed.
Print Assumptions C54_mixed_blend.
Theorem C54_mixed_pow : forall w Hw (N : num) (M : math N) (c : int_num w Hw -> N) x y, unassigned x \/ unassigned y -> mixed_pow M c true x y = FailFast.
Proof. exact (@rj_mixed_pow). Qed.
Print Assumptions C54_mixed_pow.
Example C54_mixed_example : unassigned (Iv (Ivl (i32 3) (i32 1)) : arg int32) /\ unassigned (Iv (@ivl_default float64)).
Proof. split; eexists; split; reflexivity. Qed.
