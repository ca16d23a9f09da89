(** Properties of the blending helpers with operands of different value types (C71). *)
From Coq Require Import Reals ZArith Bool.
From Flocq Require Import Core BinarySingleNaN.
From Verif Require Import Outcome SetModel MathModel Num NumLaws IntervalModel IvlSpec IntNum IntProofs FloatNum ValueTypes RoundSpec MachineSpec MixedModel MixedArithModel ConvProofs MixedBlendModel MixedBlendProofs.
Open Scope R_scope.

(** ** C71.  [near_range3 d f G x y z]: the interval [G] consists of the values of [f] at real numbers between the end points of [x], [y],
    [z] up to [d]; with [d] = 0 its end points are exactly the least and the greatest of them. *)
(** fractional_weights converts its operands first. *)
Theorem C71_weights : forall L R T cl cr, value_type T -> converts L T cl -> converts R T cr -> forall dbg (a : arg L) (b : arg R), aproper a -> aproper b ->
  mixed_weights cl cr dbg a b = iweights dbg (conv_arg cl a) (conv_arg cr b).
Proof.
  exact (fun L R T cl cr HT CL CR => let L1 := converts_laws L T cl HT CL in let R1 := converts_laws R T cr HT CR in
    mixed_weights_eq (proj1 L1) (proj1 R1) (proj1 (proj2 L1)) cl cr (proj2 (proj2 L1)) (proj2 (proj2 R1))).
Qed.
Print Assumptions C71_weights.
(** blend_fractions with an integer fraction, 0, 1 or [0, 1], is exact. *)
Theorem C71_fractions_int : forall prec emax Hp He, (2 <= prec)%Z -> forall w Hw dbg B (f : arg (int_num w Hw)) (x y : arg (float_num prec emax Hp He)),
  (0 <= val (alower f))%Z -> (val (alower f) <= val (aupper f))%Z -> (val (aupper f) <= 1)%Z -> finite_arg x -> finite_arg y ->
  0 <= B <= bpow radix2 (emax - 3) -> bounded_by B x -> bounded_by B y ->
  near_range3 0 (fun p r s => p * r + (1 - p) * s) (mixed_blend_fractions (W := int_num w Hw) (T := float_num prec emax Hp He) (int_to_float w prec emax Hp He) dbg f x y)
    (conv_arg (I := int_num w Hw) (O := float_num prec emax Hp He) (int_to_float w prec emax Hp He) f) x y.
Proof. exact int_ends. Qed.
Print Assumptions C71_fractions_int.
(** blend_linear with integer weights divides integers: the fraction is 1 if b < a and 0 otherwise. *)
Theorem C71_linear_int_partial : forall prec emax Hp He, (2 <= prec)%Z -> forall w Hw dbg B (a b : arg (int_num w Hw)) (x y : arg (float_num prec emax Hp He)),
  (0 < val (alower a))%Z -> (val (alower a) <= val (aupper a))%Z -> (0 <= val (alower b))%Z -> (val (alower b) <= val (aupper b))%Z ->
  (val (aupper a) + val (aupper b) <= int_max w)%Z -> finite_arg x -> finite_arg y -> 0 <= B <= bpow radix2 (emax - 3) -> bounded_by B x -> bounded_by B y ->
  near_range3 0 (fun p r s => p * r + (1 - p) * s) (mixed_blend_linear (W := int_num w Hw) (T := float_num prec emax Hp He) (int_to_float w prec emax Hp He) dbg a b x y)
    (Iv (Ivl (if (val (aupper b) <? val (alower a))%Z then n_one else n_zero) (if (val (alower b) <? val (aupper a))%Z then n_one else n_zero))) x y.
Proof. exact int_linear. Qed.
Print Assumptions C71_linear_int_partial.
(** So the weighted mean is missed: a = 2, b = 1, x = 0, y = 3 gives 0 instead of 1. *)
Theorem C71_linear_int_refuted : forall dbg, exists (a b : arg int32) (x y : arg float64), (forall p, ael a p -> 0 < val p)%Z /\ (forall p, ael b p -> 0 < val p)%Z /\ finite_arg x /\ finite_arg y /\ bounded_by 3 x /\ bounded_by 3 y
  /\ ~ near_range4 (/ 2) (fun p q r s => (p * r + q * s) / (p + q)) (mixed_blend_linear int_to_double dbg a b x y) (conv_arg int_to_double a) (conv_arg int_to_double b) x y.
Proof. exact int_linear_refuted. Qed.
Print Assumptions C71_linear_int_refuted.
(** A first weight that may be zero is a division by zero; the sum 1 + b/a may overflow. *)
Theorem C71_linear_int_zero : forall prec emax Hp He w Hw dbg (a b : arg (int_num w Hw)) (x y : arg (float_num prec emax Hp He)), aproper x -> aproper y ->
  (0 <= val (alower a))%Z -> (val (alower a) <= val (aupper a))%Z -> (0 <= val (alower b))%Z -> (val (alower b) <= val (aupper b))%Z -> (0 < val (alower a) + val (alower b))%Z -> (val (aupper a) + val (aupper b) <= int_max w)%Z ->
  val (alower a) = 0%Z -> mixed_blend_linear (W := int_num w Hw) (T := float_num prec emax Hp He) (int_to_float w prec emax Hp He) dbg a b x y = UB.
Proof. exact int_prefix. Qed.
Print Assumptions C71_linear_int_zero.
Theorem C71_linear_int_overflow : forall prec emax Hp He w Hw dbg (a b : int_num w Hw) (x y : arg (float_num prec emax Hp He)), aproper x -> aproper y -> val a = 1%Z -> val b = int_max w ->
  mixed_blend_linear (W := int_num w Hw) (T := float_num prec emax Hp He) (int_to_float w prec emax Hp He) dbg (Sc a) (Sc b) x y = UB.
Proof. exact int_overflow. Qed.
Print Assumptions C71_linear_int_overflow.
(** Fractions and weights of a narrower floating-point type: the deviation is that of the narrower type. *)
Theorem C71_fractions_float_partial : forall prec emax Hp He, (2 <= prec)%Z -> forall prec' emax' Hp' He' dbg, (2 <= prec')%Z -> (prec' <= prec)%Z -> (emax' <= emax)%Z ->
  forall B (f : arg (float_num prec' emax' Hp' He')) (x y : arg (float_num prec emax Hp He)), 0 <= B <= bpow radix2 (emax - 3) -> finite_arg f -> finite_arg x -> finite_arg y ->
  0 <= B2R (alower f : binary_float prec' emax') -> B2R (aupper f : binary_float prec' emax') <= 1 -> bounded_by B x -> bounded_by B y ->
  near_range3 (bpow radix2 (- prec') * (6 * B + 3)) (fun p r s => p * r + (1 - p) * s)
    (mixed_blend_fractions (W := float_num prec' emax' Hp' He') (T := float_num prec emax Hp He) (float_conv prec' emax' prec emax Hp He) dbg f x y) (conv_arg (I := float_num prec' emax' Hp' He') (O := float_num prec emax Hp He) (float_conv prec' emax' prec emax Hp He) f) x y.
Proof. exact narrow_fractions. Qed.
Print Assumptions C71_fractions_float_partial.
Theorem C71_linear_float_partial : forall prec emax Hp He, (2 <= prec)%Z -> forall prec' emax' Hp' He' dbg, (2 <= prec')%Z -> (prec' <= prec)%Z -> (emax' <= emax)%Z ->
  forall B (a b : arg (float_num prec' emax' Hp' He')) (x y : arg (float_num prec emax Hp He)), 0 <= B <= bpow radix2 (emax - 3) -> finite_arg a -> finite_arg b -> finite_arg x -> finite_arg y ->
  0 <= B2R (alower a : binary_float prec' emax') -> 0 <= B2R (alower b : binary_float prec' emax') -> 0 < B2R (alower a : binary_float prec' emax') + B2R (alower b : binary_float prec' emax') ->
  bounded_by B x -> bounded_by B y -> near_range4 (bpow radix2 (- prec') * (16 * B + 3)) (fun p q r s => (p * r + q * s) / (p + q))
    (mixed_blend_linear (W := float_num prec' emax' Hp' He') (T := float_num prec emax Hp He) (float_conv prec' emax' prec emax Hp He) dbg a b x y) (conv_arg (I := float_num prec' emax' Hp' He') (O := float_num prec emax Hp He) (float_conv prec' emax' prec emax Hp He) a) (conv_arg (I := float_num prec' emax' Hp' He') (O := float_num prec emax Hp He) (float_conv prec' emax' prec emax Hp He) b) x y.
Proof. exact narrow_linear. Qed.
Print Assumptions C71_linear_float_partial.
(** The deviation of the type of the result is exceeded: f = 2^-30 of type float, x = 0, y = 1 of type double. *)
Theorem C71_fractions_float_refuted : forall dbg, exists (f : float32) (x y : arg float64), 0 <= B2R (f : binary_float 24 128) <= 1 /\ finite_arg (Sc f) /\ finite_arg x /\ finite_arg y /\ bounded_by 1 x /\ bounded_by 1 y
  /\ ~ near_range3 (bpow radix2 (-53) * (6 * 1 + 3)) (fun p r s => p * r + (1 - p) * s) (mixed_blend_fractions float_to_double dbg (Sc f) x y) (conv_arg float_to_double (Sc f)) x y.
Proof. exact (fun dbg => ex_intro _ _ (ex_intro _ _ (ex_intro _ _ (narrow_wrong dbg)))). Qed.
Print Assumptions C71_fractions_float_refuted.
(** Integers: f = [0, 1], a = 2, b = 1, x = [-2, 1], y = [1, 2]; a = 0, b = 1.  Narrower: the same numbers of type float. *)
Example C71_example (f := Iv (Ivl (i32 0) (i32 1))) (x := Iv (Ivl (f64 (-2) 0) (f64 1 0))) (y := Iv (Ivl (f64 1 0) (f64 2 0))) (a := Sc (f32 2 0)) (b := Sc (f32 1 0)) :
  (0 <= val (alower f) /\ val (alower f) <= val (aupper f) /\ val (aupper f) <= 1 /\ 0 < val (i32 2) /\ val (i32 2) + val (i32 1) <= int_max 32)%Z /\ finite_arg x /\ finite_arg y /\ bounded_by 2 x /\ bounded_by 2 y /\ 0 <= 2 <= bpow radix2 (1024 - 3)
  /\ aproper x /\ aproper y /\ finite_arg a /\ finite_arg b /\ 0 <= B2R (alower a : binary_float 24 128) /\ 0 <= B2R (alower b : binary_float 24 128) <= 1 /\ 0 < B2R (alower a : binary_float 24 128) + B2R (alower b : binary_float 24 128)
  /\ converts int32 float64 int_to_double /\ converts float32 float64 float_to_double.
Proof. exact mixed_blend_example. Qed.
