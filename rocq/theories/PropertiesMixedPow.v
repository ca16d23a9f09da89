(** Properties of pow with an exponent of a signed integer type (C72). *)
From Coq Require Import Reals ZArith Bool Lia Lra.
From Flocq Require Import Core BinarySingleNaN.
From Verif Require Import Outcome SetModel MathModel RealMath FloatMath MathSpec Num NumLaws IntervalModel IvlSpec IntNum IntProofs XReal RealNum FloatNum ValueTypes Atan2Proofs MachineSpec SinMachineProofs PowLibProofs LibMachineProofs MixedModel MixedArithModel
  FloatIntSpec MixedPowModel MixedPowProofs MixedPowProofs2.
Open Scope R_scope.

(** ** C72.  [pow_conv N M c]: [c] converts the exponent to the floating-point type [N] with functions [M], rounding to nearest, or to a real number.
    [pow_signed M k v w]: exp(w log v), for negative v with the sign of the power with the integer exponent k. *)
(** A base without negative elements: the power with the converted exponent. *)
Theorem C72_nonneg : forall w Hw N M c, @pow_conv w Hw N M c -> forall dbg (x : arg N) (y : arg (int_num w Hw)), aproper x -> aproper y -> nonneg (alower x) ->
  mixed_pow M c dbg x y = ipow M dbg x (conv_arg c y).
Proof. exact mixed_pow_nonneg. Qed.
Print Assumptions C72_nonneg.
(** A base with negative elements: the sign is that of the exponent as given, even if it is not a floating-point number. *)
Theorem C72_formula : forall w Hw N M c, @pow_conv w Hw N M c -> forall dbg k (x : arg N) (y : arg (int_num w Hw)), increasing nonneg (m_log M) -> increasing anywhere (m_exp M) ->
  aproper x -> o_lt (alower x) n_zero = true -> val (alower y) = k -> val (aupper y) = k ->
  exists Z, mixed_pow M c dbg x y = Ret Z /\ (forall v w, ael x v -> ael (conv_arg c y) w -> exists z, pow_signed M k v w = Ret z /\ el Z z)
    /\ (o_lt (aupper x) n_zero = true -> is_hull (img2 (pow_signed M k) x (conv_arg c y)) Z).
Proof. exact mixed_pow_signed. Qed.
Print Assumptions C72_formula.
(** More than one exponent for a base with negative elements: NaN. *)
Theorem C72_nan : forall w Hw N M c, @pow_conv w Hw N M c -> forall dbg (x : arg N) (y : arg (int_num w Hw)), increasing nonneg (m_log M) -> increasing anywhere (m_exp M) ->
  aproper x -> o_lt (alower x) n_zero = true -> (val (alower y) < val (aupper y))%Z -> exists Z, mixed_pow M c dbg x y = Ret Z /\ nan_ivl Z.
Proof. exact mixed_pow_nan. Qed.
Print Assumptions C72_nan.
(** Whatever the library functions return, and whatever the operands are, there is no undefined behaviour (compare C25_pow_refuted). *)
Theorem C72_defined : forall w Hw N M c, @pow_conv w Hw N M c -> forall dbg (x : arg N) (y : arg (int_num w Hw)),
  mixed_pow M c dbg x y = FailFast \/ exists Z, mixed_pow M c dbg x y = Ret Z.
Proof. exact mixed_pow_defined. Qed.
Print Assumptions C72_defined.
(** In real arithmetic every power of the base is in the result. *)
Theorem C72_encloses : forall w Hw dbg (x : arg real_num) (y : arg (int_num w Hw)) a b n, (w <= 64)%Z -> bounds x a b -> val (alower y) = n -> val (aupper y) = n ->
  exists Z, mixed_pow real_math (fun n => XFin (IZR (val n))) dbg x y = Ret Z /\ forall r, a <= r <= b -> el Z (Rpow r (IZR n) : real_num).
Proof. exact mixed_pow_real. Qed.
Print Assumptions C72_encloses.
(** Exponents that are floating-point numbers may be converted first. *)
Theorem C72_representable : forall prec emax Hp He L w Hw, (w <= emax)%Z -> forall dbg (x : arg (float_num prec emax Hp He)) (y : arg (int_num w Hw)), (w <= 64)%Z -> aproper y ->
  fits_float prec emax (alower y) -> fits_float prec emax (aupper y) ->
  mixed_pow (N := float_num prec emax Hp He) (float_math prec emax Hp He L) (int_to_float w prec emax Hp He) dbg x y
  = ipow (float_math prec emax Hp He L) dbg x (conv_arg (I := int_num w Hw) (O := float_num prec emax Hp He) (int_to_float w prec emax Hp He) y).
Proof. exact mixed_pow_float. Qed.
Print Assumptions C72_representable.
(** Other exponents may not: (-1)^n is -1 for the odd n = 2^53 + 1, and 1 if n is converted to [double] first. *)
Theorem C72_conversion_refuted : exists (L : libm (binary_float 53 1024)) (n : int64), let M := float_math 53 1024 prec_gt_0_53 prec_lt_emax_64 L in
  let c := int_to_float 64 53 1024 prec_gt_0_53 prec_lt_emax_64 in let x := Iv (Ivl (f64 (-1) 0) (f64 (-1) 0)) : arg float64 in
  l_log L (f64 1 0) = f64 0 0 /\ l_exp L (f64 0 0) = f64 1 0 /\ @increasing float64 nonneg (m_log M) /\ @increasing float64 anywhere (m_exp M)
  /\ val n = (2 ^ 53 + 1)%Z
  /\ (exists Z, @mixed_pow 64 le_2_64 float64 M c true x (Sc n) = Ret Z /\ (o_eq (lo Z) (f64 (-1) 0) && o_eq (hi Z) (f64 (-1) 0))%bool = true)
  /\ (exists Z, ipow M true x (conv_arg (I := int64) (O := float64) c (Sc n)) = Ret Z /\ (o_eq (lo Z) (f64 1 0) && o_eq (hi Z) (f64 1 0))%bool = true).
Proof. exact conversion_changes_sign. Qed.
Print Assumptions C72_conversion_refuted.

(** The base [-2, 1] and the exponent 3, and the exponents 2 to 3, with a C library that rounds correctly. *)
Example C72_example (M := float_math 53 1024 prec_gt_0_53 prec_lt_emax_64 (nearest_libm 53 1024 prec_gt_0_53 prec_lt_emax_64)) (x := Iv (Ivl (f64 (-2) 0) (f64 1 0)) : arg float64) :
  @pow_conv 32 ltac:(lia) float64 M int_to_double /\ @increasing float64 nonneg (m_log M) /\ @increasing float64 anywhere (m_exp M)
  /\ aproper x /\ o_lt (alower x) n_zero = true /\ nonneg (aupper x) /\ val (i32 3) = 3%Z /\ (val (i32 2) < val (i32 3))%Z /\ fits_float 53 1024 (i32 3)
  /\ bounds (Iv (Ivl (XFin (-2)) (XFin 1))) (-2) 1.
Proof.
  split; [apply pc_float; lia|]. split; [apply nearest_log_mono|]. split; [apply nearest_exp_mono|]. split; [reflexivity|]. split; [reflexivity|]. split; [reflexivity|]. split; [reflexivity|]. split; [reflexivity|].
  split; [exists (f64 3 0); split; [reflexivity|]; unfold B2R, F2R; cbn; lra|]. split; [reflexivity|]. split; [reflexivity|lra].
Qed.
