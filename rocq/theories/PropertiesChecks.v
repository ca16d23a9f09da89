(** Checked preconditions (C64), and checks of contains_index (C06), assign (C10), copies (C12) and iterator arithmetic (C44). *)
From Coq Require Import Reals ZArith Bool List Lra.
From Flocq Require Import Core BinarySingleNaN.
From Verif Require Import Outcome SetModel Spec Num NumLaws IntervalModel IvlSpec IntNum XReal RealNum FloatNum IterModel ValueTypes
  MathModel FloatMath RealMath MathSpec FloatMathProofs TrigProofs DebugProofs FloatIntProofs ChecksSpec ChecksProofs PropertiesSet IvlWrap Refute.
Import ListNotations.
Open Scope R_scope.

(** ** C04: any bit pattern gives a set of listed values *)
Theorem C04_from_bits : forall (E : enum_type) (b : N), wf_set (@from_bits E b)
  /\ (forall v, member (@from_bits E b) v <-> exists i, nth_error (ev_values E) i = Some v /\ N.testbit b (N.of_nat i) = true)
  /\ ((num_values E <= 64)%nat -> to_bits (@from_bits E b) = Ret (b mod 2 ^ N.of_nat (num_values E))%N).
Proof. exact from_bits_spec. Qed.
Print Assumptions C04_from_bits.
Example C04_bits_example : @from_bits bool_enum 6 = mkset 2 /\ to_bits (@from_bits bool_enum 6) = Ret 2%N.
Proof. split; reflexivity. Qed.
(** The bits of a set are those of its members; [to_bits] throws exactly if a member is listed behind the 64th value. *)
Theorem C04_to_bits : forall (E : enum_type), enum_ok E -> forall s : vset E, wf_set s ->
  (to_bits s = Throw /\ exists i v, (64 <= i)%nat /\ nth_error (ev_values E) i = Some v /\ member s v)
  \/ ((forall i v, nth_error (ev_values E) i = Some v -> member s v -> (i < 64)%nat)
      /\ exists b, to_bits s = Ret b /\ @from_bits E b = s /\ forall i v, nth_error (ev_values E) i = Some v -> (N.testbit b (N.of_nat i) = true <-> member s v)).
Proof. exact to_bits_spec. Qed.
Print Assumptions C04_to_bits.
(** The last of 65 values. *)
Example C04_to_bits_example : enum_ok wide_enum /\ set_of_value (E := wide_enum) 64%nat = Ret (mkset (2 ^ 64)) /\ to_bits (@mkset wide_enum (2 ^ 64)) = Throw.
Proof. split; [exact wide_enum_ok|]. split; vm_compute; reflexivity. Qed.

(** ** C06 *)
Theorem C06_contains_index : forall (E : enum_type) (s : vset E) (i : Z),
  (forall v, nth_error (ev_values E) (Z.to_nat i) = Some v -> (0 <= i)%Z -> enum_ok E ->
     exists b, contains_index s i = Ret b /\ (b = true <-> member s v))
  /\ ((i < 0 \/ Z.of_nat (length (ev_values E)) <= i)%Z -> contains_index s i = FailFast).
Proof. exact contains_index_spec. Qed.
Print Assumptions C06_contains_index.
Example C06_index_example : contains_index (@mkset color_enum 4) 2 = Ret true /\ contains_index (@mkset color_enum 4) 1 = Ret false
  /\ contains_index (@mkset color_enum 4) 4 = FailFast /\ contains_index (@mkset color_enum 4) (-1) = FailFast.
Proof. repeat split. Qed.

(** ** C10: assigning an unassigned interval fails fast, whatever happened before and whatever would follow *)
Theorem C10_assign_unassigned : forall N, value_type N -> forall (ops ops' : list (@iop N)) (Y : ivl N), Forall iop_legal ops -> unassigned (Iv Y) ->
  irun ivl_default (ops ++ OAssignIvl Y :: ops') = FailFast.
Proof. exact (fun N H => assign_unassigned_fails (value_type_laws N H)). Qed.
Print Assumptions C10_assign_unassigned.
Example C10_unassigned_example : Forall (@iop_legal int32) [OAssignValue (i32 7)] /\ unassigned (Iv (@ivl_default int32))
  /\ (exists Z, irun (@ivl_default int32) [OAssignValue (i32 7)] = Ret Z /\ matches_ivl Z (Ivl (i32 7) (i32 7)) = true).
Proof. split; [repeat constructor; discriminate|]. split; [exists ivl_default; split; reflexivity|]. apply ret_witness. vm_compute. reflexivity. Qed.

(** ** C12: a copy is the interval itself, and the canonical unassigned interval for anything unassigned *)
Theorem C12_copy : forall (N : num) (X : ivl N), (~ unassigned (Iv X) -> ivl_copy X = X) /\ (unassigned (Iv X) -> ivl_copy X = ivl_default).
Proof. exact (fun N X => copy_spec X). Qed.
Print Assumptions C12_copy.
Example C12_copy_example : unassigned (Iv (Ivl (i32 3) (i32 1))) /\ ~ unassigned (Iv (Ivl (i32 1) (i32 3))).
Proof. split; [eexists; split; reflexivity|]. intros (X & E & H). injection E as <-. discriminate H. Qed.

(** ** C44: which iterator operations are defined *)
Theorem C44_positions : forall (n w : Z) (a : iter_ordty n) (d : int_ordty w),
  (((0 <= idx a + val d <= n)%Z -> exists b, iter_add a d = Ret b /\ idx b = (idx a + val d)%Z) /\ (~ (0 <= idx a + val d <= n)%Z -> iter_add a d = UB))
  /\ (((0 <= idx a - val d <= n)%Z -> exists b, iter_sub a d = Ret b /\ idx b = (idx a - val d)%Z) /\ (~ (0 <= idx a - val d <= n)%Z -> iter_sub a d = UB)).
Proof. exact (fun n w a d => conj (iter_add_positions n w a d) (iter_sub_positions n w a d)). Qed.
Print Assumptions C44_positions.
Theorem C44_step_positions : forall (n : Z) (a : iter_ordty n), (0 <= idx a <= n)%Z
  /\ ((idx a < n)%Z -> exists b, @o_succ (iter_ordty n) a = Ret b /\ idx b = (idx a + 1)%Z) /\ (idx a = n -> @o_succ (iter_ordty n) a = UB)
  /\ ((0 < idx a)%Z -> exists b, @o_pred (iter_ordty n) a = Ret b /\ idx b = (idx a - 1)%Z) /\ (idx a = 0%Z -> @o_pred (iter_ordty n) a = UB).
Proof. exact iter_step_positions. Qed.
Print Assumptions C44_step_positions.
Example C44_positions_example : let a : iter_ordty 5 := exist _ 3%Z eq_refl in
  (0 <= idx a + val (i32 2) <= 5)%Z /\ ~ (0 <= idx a + val (i32 3) <= 5)%Z /\ iter_add a (i32 3) = UB.
Proof. cbn. split; [split; discriminate|]. split; [intros [_ H]; now apply H|]. reflexivity. Qed.

(** ** C64: domains *)
Theorem C64_domains : forall N M, fp_math N M -> forall X : ivl N, proper X ->
  (isqrt M true X = FailFast <-> some_below (Iv X) n_zero)
  /\ (increasing nonneg (m_log M) -> (ilog M true X = FailFast <-> some_below (Iv X) n_zero))
  /\ (iasin M true X = FailFast <-> some_below (Iv X) n_mone \/ some_above (Iv X) n_one)
  /\ (iacos M true X = FailFast <-> some_below (Iv X) n_mone \/ some_above (Iv X) n_one).
Proof. exact (fun N M H X => fp_domains H X). Qed.
Print Assumptions C64_domains.
Theorem C64_scalar_domains : forall x y : R,
  (ssqrt real_math true (XFin x) = FailFast <-> x < 0) /\ (slog real_math true (XFin x) = FailFast <-> x < 0)
  /\ (sasin real_math true (XFin x) = FailFast <-> x < -1 \/ 1 < x) /\ (sacos real_math true (XFin x) = FailFast <-> x < -1 \/ 1 < x)
  /\ (satan2 real_math true (XFin y) (XFin x) = FailFast <-> y = 0 /\ x <= 0).
Proof. exact (fun x y => conj (real_sqrt_fails x) (conj (real_log_fails x) (conj (real_asin_fails x) (conj (real_acos_fails x) (real_atan2_fails y x))))). Qed.
Print Assumptions C64_scalar_domains.
(** ** C64: weights.  The converse for fractional_weights is false in machine arithmetic (C27_fractional_weights_refuted). *)
Theorem C64_fractional_weights : forall N M, fp_math N M -> forall a b : arg N, aproper a -> aproper b -> bad_weights a b -> iweights true a b = FailFast.
Proof. exact (fun N M H a b => fp_weights_reject H a b). Qed.
Print Assumptions C64_fractional_weights.
Theorem C64_blend_linear : forall N M, fp_math N M -> forall a b x y : arg N, aproper a -> aproper b -> aproper x -> aproper y ->
  (iblend_linear true a b x y = FailFast <-> bad_weights a b).
Proof. exact (fun N M H a b x y => fp_blend_linear_rejects H a b x y). Qed.
Print Assumptions C64_blend_linear.
Theorem C64_blend_fractions : forall N M, fp_math N M -> forall f x y : arg N, aproper f -> aproper x -> aproper y ->
  (iblend_fractions true f x y = FailFast <-> some_below f n_zero \/ some_above f n_one) /\ exists Z, iblend_fractions false f x y = Ret Z.
Proof. exact (fun N M H f x y Pf Px Py => conj (fp_blend_fractions_rejects H f x y Pf Px Py) (fp_blend_fractions_release H f x y Pf Px Py)). Qed.
Print Assumptions C64_blend_fractions.
Theorem C64_scalar_weights : forall a b x y : R,
  (@sblend_linear real_num true (XFin a) (XFin b) (XFin x) (XFin y) = FailFast <-> a < 0 \/ b < 0 \/ a + b <= 0)
  /\ (@sweights real_num true (XFin a) (XFin b) = FailFast <-> a < 0 \/ b < 0 \/ a + b <= 0)
  /\ (sblend_quadratic real_math true (XFin a : real_num) (XFin b) (XFin x) (XFin y) = FailFast <-> a < 0 \/ b < 0 \/ a + b <= 0).
Proof. exact real_scalar_weights. Qed.
Print Assumptions C64_scalar_weights.
Theorem C64_scalar_fraction : forall f x y : R, @sblend_fractions real_num true (XFin f) (XFin x) (XFin y) = FailFast <-> f < 0 \/ 1 < f.
Proof. exact real_scalar_fraction. Qed.
Print Assumptions C64_scalar_fraction.
(** Release builds blend with whatever weights. *)
Theorem C64_release : forall a b f x y : R,
  (a + b <> 0 -> @sblend_linear real_num false (XFin a) (XFin b) (XFin x) (XFin y) = Ret (XFin ((a * x + b * y) / (a + b)) : real_num))
  /\ @sblend_fractions real_num false (XFin f) (XFin x) (XFin y) = Ret (XFin (f * x + (1 - f) * y) : real_num).
Proof. exact (fun a b f x y => conj (real_release_linear a b x y) (real_release_fraction f x y)). Qed.
Print Assumptions C64_release.
Example C64_example : aproper (Iv (Ivl (f64 (-1) 0) (f64 1 0))) /\ aproper (Sc (f64 1 0)) /\ some_below (Iv (Ivl (f64 (-1) 0) (f64 1 0))) n_zero
  /\ bad_weights (Iv (Ivl (f64 0 0) (f64 1 0))) (Sc (f64 0 0)) /\ iweights true (Iv (Ivl (f64 0 0) (f64 1 0))) (Sc (f64 0 0)) = FailFast /\ -3 + 1 <> 0.
Proof.
  split; [reflexivity|]. split; [reflexivity|]. split; [exists (f64 (-1) 0); repeat split|]. split; [exists (f64 0 0), (f64 0 0); repeat split; right; right; eexists; split; reflexivity|].
  split; [apply failfast_witness; vm_compute; reflexivity|lra].
Qed.
