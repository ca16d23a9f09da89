(** Properties of pow with infinite operands and with bases of both signs (C77). *)
From Coq Require Import Reals ZArith Bool Lia Lra.
From Flocq Require Import Core BinarySingleNaN.
From Verif Require Import Outcome Num NumLaws IntervalModel IvlSpec FloatNum MathModel FloatMath MathSpec RealMath SinMachineProofs PowLibProofs PowHullSpec PowHullProofs PowHullProofs2.

(** ** C77.  [pow_at M a b v]: v = exp(b log a) as computed, where infinity times zero is zero.  [nonneg_powers], [nonpos_powers n]: these values for the elements of the base that
    are at least (at most) zero; the latter with the sign of a power with the integer exponent n. *)
(** A base without negative elements: exactly the hull of the powers, also for infinite operands. *)
Theorem C77_nonneg : forall N M, fp_math N M -> increasing nonneg (m_log M) -> increasing anywhere (m_exp M) ->
  forall dbg (x y : arg N), aproper x -> aproper y -> nonneg (alower x) -> exists Z, ipow M dbg x y = Ret Z /\ is_hull (nonneg_powers M x y) Z.
Proof. exact fp_pow_nonneg. Qed.
Print Assumptions C77_nonneg.
(** A base with negative elements and an integer: the hull of the powers of the elements of either sign. *)
Theorem C77_integer : forall N M, fp_math N M -> increasing nonneg (m_log M) -> increasing anywhere (m_exp M) ->
  forall dbg (x y : arg N) n, aproper x -> o_lt (alower x) n_zero = true -> is_integer M n y ->
  exists Z, ipow M dbg x y = Ret Z /\ is_hull (fun v => nonneg_powers M x y v \/ nonpos_powers M n x y v) Z.
Proof. exact fp_pow_integer. Qed.
Print Assumptions C77_integer.
(** A base with negative elements and anything else: NaN, or undefined behaviour if the lower bound of the exponent cannot be converted to long long. *)
Theorem C77_other : forall N M, fp_math N M -> increasing nonneg (m_log M) -> increasing anywhere (m_exp M) ->
  forall dbg (x y : arg N), aproper x -> aproper y -> o_lt (alower x) n_zero = true -> (forall n, ~ is_integer M n y) ->
  (m_trunc M (alower y) = UB /\ ipow M dbg x y = UB) \/ exists Z, ipow M dbg x y = Ret Z /\ nan_ivl Z.
Proof. exact fp_pow_other. Qed.
Print Assumptions C77_other.
(** The integers among the exponents of a machine type. *)
Theorem C77_integers : forall prec emax Hp He L (n : Z) (y : arg (float_num prec emax Hp He)), is_integer (float_math prec emax Hp He L) n y <->
  o_eq (alower y) (aupper y) = true /\ is_finite (alower y : binary_float prec emax) = true /\ B2R (alower y : binary_float prec emax) = IZR n /\ (- 2 ^ 63 <= n < 2 ^ 63)%Z.
Proof. exact integer_exponents. Qed.
Print Assumptions C77_integers.
(** The exponent 0 gives 1, also for the base 0 and for infinite bases; the base 1 gives 1, also for infinite exponents. *)
Theorem C77_zero_exponent : forall N M, fp_math N M -> increasing nonneg (m_log M) -> increasing anywhere (m_exp M) -> (forall e : N, is_zero e -> o_eq (m_exp M e) n_one = true) ->
  forall dbg (x y : arg N), aproper x -> is_zero (alower y) -> is_zero (aupper y) -> nonneg (alower x) \/ (o_lt (alower x) n_zero = true /\ is_integer M 0 y) ->
  exists Z, ipow M dbg x y = Ret Z /\ o_eq (lo Z) n_one = true /\ o_eq (hi Z) n_one = true.
Proof. exact fp_pow_zero. Qed.
Print Assumptions C77_zero_exponent.
Theorem C77_base_one : forall N M, fp_math N M -> increasing nonneg (m_log M) -> increasing anywhere (m_exp M) -> (forall e : N, is_zero e -> o_eq (m_exp M e) n_one = true) ->
  forall dbg (x y : arg N), o_eq (alower x) n_one = true -> o_eq (aupper x) n_one = true -> aproper y -> is_zero (m_log M n_one) ->
  exists Z, ipow M dbg x y = Ret Z /\ o_eq (lo Z) n_one = true /\ o_eq (hi Z) n_one = true.
Proof. exact fp_pow_one. Qed.
Print Assumptions C77_base_one.
(** The hypotheses hold for a C library that rounds correctly; [0, +inf] to the power of [-inf, +inf], and 1 to the power of it. *)
Example C77_example (M := float_math 53 1024 prec_gt_0_53 prec_lt_emax_64 (nearest_libm 53 1024 prec_gt_0_53 prec_lt_emax_64)) (x := Iv (Ivl n_zero n_top) : arg float64) (y := Iv (Ivl n_bot n_top) : arg float64) :
  increasing (N := float64) nonneg (m_log M) /\ increasing (N := float64) anywhere (m_exp M) /\ (forall e : float64, is_zero e -> o_eq (m_exp M e : float64) n_one = true) /\ is_zero (m_log M n_one : float64)
  /\ aproper x /\ aproper y /\ nonneg (alower x).
Proof. split; [apply nearest_log_mono|]. split; [apply nearest_exp_mono|]. split; [apply nearest_exp_zero|]. split; [apply nearest_log_one|]. repeat split. Qed.
(** The base [-2, 1] and the exponent -1. *)
Example C77_integer_example (M := float_math 53 1024 prec_gt_0_53 prec_lt_emax_64 (nearest_libm 53 1024 prec_gt_0_53 prec_lt_emax_64)) (x := Iv (Ivl (f64 (-2) 0) (f64 1 0)) : arg float64) (y := Sc (f64 (-1) 0) : arg float64) :
  aproper x /\ o_lt (alower x) n_zero = true /\ is_integer M (-1) y.
Proof. split; [reflexivity|]. split; [reflexivity|]. split; [reflexivity|]. split; [reflexivity|]. vm_compute. reflexivity. Qed.
(** The exponents [1, 2] and +inf. *)
Example C77_other_example (M := float_math 53 1024 prec_gt_0_53 prec_lt_emax_64 (nearest_libm 53 1024 prec_gt_0_53 prec_lt_emax_64)) (y := Iv (Ivl (f64 1 0) (f64 2 0)) : arg float64) :
  aproper y /\ (forall n, ~ is_integer M n y) /\ m_trunc M (n_top : float64) = UB /\ forall n, ~ is_integer M n (Sc (n_top : float64)).
Proof. split; [reflexivity|]. split; [intros n (E & _); discriminate E|]. split; [reflexivity|]. intros n (_ & E & _). discriminate E. Qed.
