(** Machine intervals of cos, sin (C66), pow (C67), the other elementary functions (C68), tan (C69), of blending (C70) and the exact functions. *)
From Coq Require Import Reals ZArith Bool Lra Lia.
From Flocq Require Import Core BinarySingleNaN.
From Verif Require Import Outcome Num IntervalModel IvlSpec MathModel MathSpec FloatNum FloatMath RoundSpec MachineSpec NumericFacts RealMath SinMachineProofs PowNearProofs PowLibProofs LibMachineProofs TanMachineProofs BlendMachineProofs.
Open Scope R_scope.

Theorem C66_cos : forall prec emax Hp He L eps B dbg (X : ivl (float_num prec emax Hp He)), (4 <= prec)%Z -> nearest PI (l_pi L) ->
  @cos_within prec emax Hp He eps (l_cos L) -> finite_arg (Iv X) -> bounded_by B (Iv X) -> B <= bpow radix2 (prec - 4) ->
  near_range (eps + (12 * B + 64) * bpow radix2 (- prec)) cos (icos (float_math prec emax Hp He L) dbg X) (Iv X)
  /\ inside (-1) 1 (icos (float_math prec emax Hp He L) dbg X).
Proof. exact cos_machine. Qed.
Print Assumptions C66_cos.
Theorem C66_sin : forall prec emax Hp He L eps B dbg (X : ivl (float_num prec emax Hp He)), (6 <= prec)%Z -> nearest PI (l_pi L) ->
  @cos_within prec emax Hp He eps (l_cos L) -> finite_arg (Iv X) -> bounded_by B (Iv X) -> B <= bpow radix2 (prec - 5) ->
  near_range (eps + (14 * B + 90) * bpow radix2 (- prec)) sin (isin (float_math prec emax Hp He L) dbg X) (Iv X)
  /\ inside (-1) 1 (isin (float_math prec emax Hp He L) dbg X).
Proof. exact sin_machine. Qed.
Print Assumptions C66_sin.
(** A C library that rounds correctly meets the hypotheses, with eps = 2^-prec; so does the interval [1, 2], with B = 2. *)
Example C66_example : nearest PI (l_pi (nearest_libm 53 1024 prec_gt_0_53 prec_lt_emax_64))
  /\ @cos_within 53 1024 prec_gt_0_53 prec_lt_emax_64 (bpow radix2 (-53)) (l_cos (nearest_libm 53 1024 prec_gt_0_53 prec_lt_emax_64))
  /\ finite_arg (Iv (Ivl (f64 1 0) (f64 2 0) : ivl float64)) /\ bounded_by 2 (Iv (Ivl (f64 1 0) (f64 2 0) : ivl float64)) /\ 2 <= bpow radix2 (53 - 5).
Proof.
  destruct (nearest_libm_cos 53 1024 prec_gt_0_53 prec_lt_emax_64 ltac:(lia)) as [A B]. split; [exact A|]. split; [exact B|].
  assert (E1 : B2R (f64 1 0) = 1) by (unfold B2R, F2R; cbn; lra). assert (E2 : B2R (f64 2 0) = 2) by (unfold B2R, F2R; cbn; lra).
  unfold finite_arg, bounded_by. cbn [alower aupper lo hi]. rewrite E1, E2. rewrite !Rabs_pos_eq by lra.
  split; [split; [reflexivity|split; [reflexivity|lra]]|]. split; [split; lra|]. change (bpow radix2 (53 - 5)) with 281474976710656. lra.
Qed.

(** The deviation cannot be dropped: for every correctly signed cosine the machine interval of sin misses a value of sin. *)
Theorem C66_sin_refuted : forall (L : libm (binary_float 53 1024)) dbg, nearest PI (l_pi L) ->
  (forall v, is_finite v = true -> Rabs (B2R v) <= 7 -> is_finite (l_cos L v) = true /\ (bpow radix2 (-60) <= cos (B2R v) -> 0 < B2R (l_cos L v))) ->
  exists (X Z : ivl float64) (r : R), finite_arg (Iv X) /\ isin (float_math 53 1024 prec_gt_0_53 prec_lt_emax_64 L) dbg X = Ret Z /\ within (Iv X) r
    /\ ~ (B2R (lo Z) <= sin r <= B2R (hi Z)).
Proof. exact sin_zero_missed. Qed.
Print Assumptions C66_sin_refuted.
Example C66_sin_refuted_example : nearest PI (l_pi (nearest_libm 53 1024 prec_gt_0_53 prec_lt_emax_64))
  /\ forall v, is_finite v = true -> Rabs (B2R v) <= 7 -> is_finite (l_cos (nearest_libm 53 1024 prec_gt_0_53 prec_lt_emax_64) v) = true /\
  (bpow radix2 (-60) <= cos (B2R v) -> 0 < B2R (l_cos (nearest_libm 53 1024 prec_gt_0_53 prec_lt_emax_64) v)).
Proof. exact (conj (proj1 (nearest_libm_cos 53 1024 prec_gt_0_53 prec_lt_emax_64 ltac:(lia))) nearest_libm_sign). Qed.

(** ** C67 *)
Theorem C67_formula : forall N M, fp_math N M -> forall dbg (x y : arg N), increasing nonneg (m_log M) -> increasing anywhere (m_exp M) ->
  aproper x -> nonneg (alower x) -> aproper y -> finite (alower y) -> finite (aupper y) ->
  exists Z, ipow M dbg x y = Ret Z /\ is_hull (img2 (pow_formula M) x y) Z.
Proof. exact pow_formula_hull. Qed.
Print Assumptions C67_formula.
Theorem C67_formula_integer : forall N M, fp_math N M -> forall dbg k (x y : arg N), increasing nonneg (m_log M) -> increasing anywhere (m_exp M) ->
  aproper x -> o_lt (alower x) n_zero = true -> o_eq (alower y) (aupper y) = true -> finite (alower y) -> m_trunc M (alower y) = Ret k -> o_eq (m_of_Z M k) (alower y) = true ->
  exists Z, ipow M dbg x y = Ret Z /\ (forall v w, ael x v -> ael y w -> exists z, pow_signed M k v w = Ret z /\ el Z z)
    /\ (o_lt (aupper x) n_zero = true -> is_hull (img2 (pow_signed M k) x y) Z).
Proof. exact pow_signed_hull. Qed.
Print Assumptions C67_formula_integer.
Theorem C67_near : forall prec emax Hp He L el ex A Lam T, @log_within prec emax Hp He el Lam (l_log L) -> @exp_within prec emax Hp He ex T (l_exp L) ->
  A * Lam + (A * el + bpow radix2 (- prec) * (A * (Lam + el) + 1)) <= T -> T <= bpow radix2 (emax - 1) -> 0 <= A -> 0 <= Lam -> 0 <= el -> 0 <= ex <= 1 ->
  forall dbg (x y : arg (float_num prec emax Hp He)),
  increasing nonneg (m_log (float_math prec emax Hp He L)) -> increasing anywhere (m_exp (float_math prec emax Hp He L)) ->
  finite_arg x -> 0 < B2R (alower x) -> Rabs (ln (B2R (alower x))) <= Lam -> Rabs (ln (B2R (aupper x))) <= Lam -> finite_arg y -> bounded_by A y ->
  near_powers ex (A * el + bpow radix2 (- prec) * (A * (Lam + el) + 1)) (ipow (float_math prec emax Hp He L) dbg x y) x y.
Proof. exact pow_near. Qed.
Print Assumptions C67_near.
(** A C library that rounds correctly meets the hypotheses; so do [1, 2] and 100 with Lam = 1, A = 100, T = 700. *)
Example C67_example (NL := nearest_libm 53 1024 prec_gt_0_53 prec_lt_emax_64) (x := Iv (Ivl (f64 1 0) (f64 2 0)) : arg float64) (y := Sc (f64 100 0) : arg float64) (el := bpow radix2 (-53) * (1 + 1)) :
  @increasing float64 nonneg (m_log (float_math 53 1024 prec_gt_0_53 prec_lt_emax_64 NL)) /\ @increasing float64 anywhere (m_exp (float_math 53 1024 prec_gt_0_53 prec_lt_emax_64 NL))
  /\ @log_within 53 1024 prec_gt_0_53 prec_lt_emax_64 el 1 (l_log NL) /\ @exp_within 53 1024 prec_gt_0_53 prec_lt_emax_64 (bpow radix2 (-53)) 700 (l_exp NL)
  /\ 100 * 1 + (100 * el + bpow radix2 (-53) * (100 * (1 + el) + 1)) <= 700 /\ 700 <= bpow radix2 (1024 - 1)
  /\ finite_arg x /\ 0 < B2R (alower x) /\ Rabs (ln (B2R (alower x))) <= 1 /\ Rabs (ln (B2R (aupper x))) <= 1 /\ finite_arg y /\ bounded_by 100 y.
Proof.
  assert (E1 : B2R (f64 1 0) = 1) by (unfold B2R, F2R; cbn; lra). assert (E2 : B2R (f64 2 0) = 2) by (unfold B2R, F2R; cbn; lra). assert (E3 : B2R (f64 100 0) = 100) by (unfold B2R, F2R; cbn; lra).
  pose proof ln2_bounds as L2. split; [apply nearest_log_mono|]. split; [apply nearest_exp_mono|].
  split; [apply nearest_log_within; apply Rle_trans with (bpow radix2 1); [cbn; lra|apply bpow_le; lia]|]. split; [apply nearest_exp_within|].
  split; [unfold el; change (bpow radix2 (-53)) with (/ 9007199254740992); lra|]. split; [apply Rle_trans with (bpow radix2 10); [cbn; lra|apply bpow_le; lia]|].
  unfold finite_arg, bounded_by, x, y. cbn [alower aupper lo hi]. change (B2R (f64 1 0 : float64)) with (B2R (f64 1 0)). change (B2R (f64 2 0 : float64)) with (B2R (f64 2 0)). change (B2R (f64 100 0 : float64)) with (B2R (f64 100 0)).
  rewrite E1, E2, E3, ln_1, Rabs_R0. rewrite (Rabs_pos_eq 100), (Rabs_pos_eq (ln 2)) by lra.
  split; [split; [reflexivity|split; [reflexivity|lra]]|]. do 3 (split; [lra|]). split; [split; [reflexivity|split; [reflexivity|lra]]|]. lra.
Qed.
(** The base [-2, 1] and the exponent 3. *)
Example C67_integer_example (M := float_math 53 1024 prec_gt_0_53 prec_lt_emax_64 (nearest_libm 53 1024 prec_gt_0_53 prec_lt_emax_64)) (x := Iv (Ivl (f64 (-2) 0) (f64 1 0)) : arg float64) (y := Sc (f64 3 0) : arg float64) :
  aproper x /\ o_lt (alower x) n_zero = true /\ o_eq (alower y) (aupper y) = true /\ finite (alower y) /\ m_trunc M (alower y) = Ret 3%Z /\ o_eq (m_of_Z M 3) (alower y) = true.
Proof.
  split; [reflexivity|]. split; [reflexivity|]. split; [reflexivity|]. split; [apply fin_finite; reflexivity|]. split; [reflexivity|]. vm_compute. reflexivity.
Qed.

(** The deviation cannot be dropped, however accurate the logarithm is: pow(2, 1000) does not contain 2^1000. *)
Theorem C67_refuted : forall (L : libm (binary_float 53 1024)) dbg, @log_within 53 1024 prec_gt_0_53 prec_lt_emax_64 (bpow radix2 (-10)) 1 (l_log L) ->
  @exp_within 53 1024 prec_gt_0_53 prec_lt_emax_64 (bpow radix2 (-46)) 700 (l_exp L) ->
  exists (X Z : ivl float64) (y : float64) (r s : R), finite_arg (Iv X) /\ finite_arg (Sc y) /\ within (Iv X) r /\ within (Sc y) s
    /\ ipow (float_math 53 1024 prec_gt_0_53 prec_lt_emax_64 L) dbg (Iv X) (Sc y) = Ret Z /\ ~ (B2R (lo Z) <= Rpower r s <= B2R (hi Z)).
Proof. exact pow_missed. Qed.
Print Assumptions C67_refuted.
Example C67_refuted_example (NL := nearest_libm 53 1024 prec_gt_0_53 prec_lt_emax_64) :
  @log_within 53 1024 prec_gt_0_53 prec_lt_emax_64 (bpow radix2 (-10)) 1 (l_log NL) /\ @exp_within 53 1024 prec_gt_0_53 prec_lt_emax_64 (bpow radix2 (-46)) 700 (l_exp NL).
Proof.
  split; intros v Fv.
  - intros Pv Lv. destruct (nearest_log_within 53 1024 prec_gt_0_53 prec_lt_emax_64 1 ltac:(apply Rle_trans with (bpow radix2 1); [cbn; lra|apply bpow_le; lia]) v Fv Pv Lv) as [A B].
    split; [exact A|]. eapply Rle_trans; [exact B|]. cbn. lra.
  - intros Tv. destruct (nearest_exp_within v Fv Tv) as [A B]. split; [exact A|]. eapply Rle_trans; [exact B|]. apply Rmult_le_compat_r; [apply Rlt_le, exp_pos|]. apply bpow_le. lia.
Qed.

(** ** C68 *)
Theorem C68_cbrt : forall prec emax Hp He L eps dbg (X : ivl (float_num prec emax Hp He)), finite_arg (Iv X) ->
  @fn_within prec emax Hp He eps Rcbrt (l_cbrt L) (Iv X) -> near_range eps Rcbrt (icbrt (float_math prec emax Hp He L) dbg X) (Iv X).
Proof. exact cbrt_near. Qed.
Print Assumptions C68_cbrt.
Theorem C68_log : forall prec emax Hp He L eps dbg (X : ivl (float_num prec emax Hp He)), finite_arg (Iv X) -> 0 < B2R (lo X) -> @increasing (float_num prec emax Hp He) nonneg (m_log (float_math prec emax Hp He L)) ->
  @fn_within prec emax Hp He eps ln (l_log L) (Iv X) -> near_range eps ln (ilog (float_math prec emax Hp He L) dbg X) (Iv X).
Proof. exact log_near. Qed.
Print Assumptions C68_log.
Theorem C68_exp : forall prec emax Hp He L eps dbg (X : ivl (float_num prec emax Hp He)), finite_arg (Iv X) -> @increasing (float_num prec emax Hp He) anywhere (m_exp (float_math prec emax Hp He L)) ->
  @fn_within prec emax Hp He eps exp (l_exp L) (Iv X) -> near_range eps exp (iexp (float_math prec emax Hp He L) dbg X) (Iv X).
Proof. exact exp_near. Qed.
Print Assumptions C68_exp.
Theorem C68_asin : forall prec emax Hp He L eps dbg (X : ivl (float_num prec emax Hp He)), finite_arg (Iv X) -> -1 <= B2R (lo X) -> B2R (hi X) <= 1 ->
  @fn_within prec emax Hp He eps asin (l_asin L) (Iv X) -> near_range eps asin (iasin (float_math prec emax Hp He L) dbg X) (Iv X).
Proof. exact asin_near. Qed.
Print Assumptions C68_asin.
Theorem C68_acos : forall prec emax Hp He L eps dbg (X : ivl (float_num prec emax Hp He)), finite_arg (Iv X) -> -1 <= B2R (lo X) -> B2R (hi X) <= 1 ->
  @fn_within prec emax Hp He eps acos (l_acos L) (Iv X) -> near_range eps acos (iacos (float_math prec emax Hp He L) dbg X) (Iv X).
Proof. exact acos_near. Qed.
Print Assumptions C68_acos.
Theorem C68_atan : forall prec emax Hp He L eps dbg (X : ivl (float_num prec emax Hp He)), finite_arg (Iv X) ->
  @fn_within prec emax Hp He eps atan (l_atan L) (Iv X) -> near_range eps atan (iatan (float_math prec emax Hp He L) dbg X) (Iv X).
Proof. exact atan_near. Qed.
Print Assumptions C68_atan.
(** Scalars and intervals. No point of the box has y = 0 and x <= 0. *)
Theorem C68_atan2 : forall prec emax Hp He L eps dbg (y x : arg (float_num prec emax Hp He)), finite_arg y -> finite_arg x ->
  (forall r s, within y r -> within x s -> r <> 0 \/ 0 < s) -> @fn2_within prec emax Hp He eps Ratan2 (l_atan2 L) y x ->
  near_range2 eps Ratan2 (iatan2 (float_math prec emax Hp He L) dbg y x) y x.
Proof. exact atan2_near. Qed.
Print Assumptions C68_atan2.
(** A box with such a point: every C library. *)
Theorem C68_atan2_cut : forall prec emax Hp He L dbg (y x : arg (float_num prec emax Hp He)), finite_arg y -> finite_arg x ->
  forall r s, within y r -> within x s -> r = 0 -> s <= 0 -> exists Z, iatan2 (float_math prec emax Hp He L) dbg y x = Ret Z /\ nan_ivl Z.
Proof. exact atan2_cut. Qed.
Print Assumptions C68_atan2_cut.
(** A C library that rounds correctly meets the hypotheses on [1/2, 1] with eps = 5 * 2^-53; so does atan2 on [1/2, 1] x [-2, 1]; [-2, 1] x [-2, 1] contains the origin. *)
Example C68_example (NL := nearest_libm 53 1024 prec_gt_0_53 prec_lt_emax_64) (X := Ivl (f64 1 (-1)) (f64 1 0) : ivl float64) (W := Ivl (f64 (-2) 0) (f64 1 0) : ivl float64) (eps := bpow radix2 (-53) * (4 + 1)) :
  finite_arg (Iv X) /\ finite_arg (Iv W) /\ 0 < B2R (lo X) /\ -1 <= B2R (lo X) /\ B2R (hi X) <= 1
  /\ @increasing float64 nonneg (m_log (float_math 53 1024 prec_gt_0_53 prec_lt_emax_64 NL)) /\ @increasing float64 anywhere (m_exp (float_math 53 1024 prec_gt_0_53 prec_lt_emax_64 NL))
  /\ @fn_within 53 1024 prec_gt_0_53 prec_lt_emax_64 eps Rcbrt (l_cbrt NL) (Iv X) /\ @fn_within 53 1024 prec_gt_0_53 prec_lt_emax_64 eps ln (l_log NL) (Iv X)
  /\ @fn_within 53 1024 prec_gt_0_53 prec_lt_emax_64 eps exp (l_exp NL) (Iv X) /\ @fn_within 53 1024 prec_gt_0_53 prec_lt_emax_64 eps asin (l_asin NL) (Iv X)
  /\ @fn_within 53 1024 prec_gt_0_53 prec_lt_emax_64 eps acos (l_acos NL) (Iv X) /\ @fn_within 53 1024 prec_gt_0_53 prec_lt_emax_64 eps atan (l_atan NL) (Iv X)
  /\ @fn2_within 53 1024 prec_gt_0_53 prec_lt_emax_64 eps Ratan2 (l_atan2 NL) (Iv X) (Iv W) /\ (forall r s, within (Iv X) r -> within (Iv W) s -> r <> 0 \/ 0 < s)
  /\ within (Iv W) 0.
Proof. exact lib_example. Qed.

(** ** C69 *)
(** No pole near a number between the end points. *)
Theorem C69_tan : forall prec emax Hp He, (4 <= prec)%Z -> forall L B dbg, nearest PI (l_pi L) -> 0 <= B <= bpow radix2 (prec - 4) ->
  forall eps c (X : ivl (float_num prec emax Hp He)), @tan_within prec emax Hp He eps (c / 2) (l_tan L) -> finite_arg (Iv X) -> bounded_by B (Iv X) ->
  (forall r, within (Iv X) r -> c <= Rabs (cos r)) -> bpow radix2 (- prec) * (6 * B + 20) <= c / 2 ->
  near_range (eps + 2 * (bpow radix2 (- prec) * (6 * B + 20)) / (c * c)) tan (itan (float_math prec emax Hp He L) dbg X) (Iv X).
Proof. exact tan_near. Qed.
Print Assumptions C69_tan.
(** At least a period: everything, for every C library. *)
Theorem C69_wide : forall prec emax Hp He, (4 <= prec)%Z -> forall L B dbg, nearest PI (l_pi L) -> 0 <= B <= bpow radix2 (prec - 4) ->
  forall X : ivl (float_num prec emax Hp He), finite_arg (Iv X) -> bounded_by B (Iv X) -> PI + bpow radix2 (- prec) * (4 * B + 8) <= B2R (hi X) - B2R (lo X) ->
  exists Z, itan (float_math prec emax Hp He L) dbg X = Ret Z /\ lo Z = n_bot /\ hi Z = n_top.
Proof. exact tan_wide. Qed.
Print Assumptions C69_wide.
(** A pole inside an interval narrower than a period: the result is bounded although the tangent is not. *)
Theorem C69_pole_refuted : forall prec emax Hp He, (4 <= prec)%Z -> forall L B dbg, nearest PI (l_pi L) -> 0 <= B <= bpow radix2 (prec - 4) ->
  forall eps c (X : ivl (float_num prec emax Hp He)), @tan_within prec emax Hp He eps (c / 2) (l_tan L) -> finite_arg (Iv X) -> bounded_by B (Iv X) ->
  c <= Rabs (cos (B2R (lo X))) -> c <= Rabs (cos (B2R (hi X))) -> bpow radix2 (- prec) * (6 * B + 20) <= c / 2 ->
  B2R (hi X) - B2R (lo X) <= PI - bpow radix2 (- prec) * (4 * B + 20) ->
  forall k, within (Iv X) (PI / 2 + IZR k * PI) ->
  exists Z, itan (float_math prec emax Hp He L) dbg X = Ret Z /\ finite_arg (Iv Z) /\ forall d, exists r, within (Iv X) r /\ cos r <> 0 /\ B2R (hi Z) + d < tan r.
Proof. exact tan_pole. Qed.
Print Assumptions C69_pole_refuted.
(** A C library that rounds correctly; [0, 1/2] for the first, [0, 3] for the last and [0, 4] for the second theorem. *)
Example C69_example (NL := nearest_libm 53 1024 prec_gt_0_53 prec_lt_emax_64) (X := Ivl (f64 0 0) (f64 1 (-1)) : ivl float64) (W := Ivl (f64 0 0) (f64 3 0) : ivl float64) (V := Ivl (f64 0 0) (f64 4 0) : ivl float64) :
  nearest PI (l_pi NL) /\ @tan_within 53 1024 prec_gt_0_53 prec_lt_emax_64 (bpow radix2 (-53) * (4 + 1)) (/ 2 / 2) (l_tan NL) /\ 4 <= bpow radix2 (53 - 4) /\ bpow radix2 (-53) * (6 * 4 + 20) <= / 2 / 2
  /\ finite_arg (Iv X) /\ bounded_by 4 (Iv X) /\ (forall r, within (Iv X) r -> / 2 <= Rabs (cos r))
  /\ finite_arg (Iv W) /\ bounded_by 4 (Iv W) /\ / 2 <= Rabs (cos (B2R (lo W))) /\ / 2 <= Rabs (cos (B2R (hi W))) /\ B2R (hi W) - B2R (lo W) <= PI - bpow radix2 (-53) * (4 * 4 + 20) /\ within (Iv W) (PI / 2 + IZR 0 * PI)
  /\ finite_arg (Iv V) /\ bounded_by 4 (Iv V) /\ PI + bpow radix2 (-53) * (4 * 4 + 8) <= B2R (hi V) - B2R (lo V).
Proof. exact tan_example. Qed.

(** ** C70 *)
Theorem C70_fractions : forall prec emax Hp He, (2 <= prec)%Z -> forall B dbg (f x y : arg (float_num prec emax Hp He)), 0 <= B <= bpow radix2 (emax - 3) ->
  finite_arg f -> finite_arg x -> finite_arg y -> 0 <= B2R (alower f) -> B2R (aupper f) <= 1 -> bounded_by B x -> bounded_by B y ->
  near_range3 (bpow radix2 (- prec) * (6 * B + 3)) (fun p r s => p * r + (1 - p) * s) (iblend_fractions dbg f x y) f x y.
Proof. exact fractions_near. Qed.
Print Assumptions C70_fractions.
Theorem C70_linear : forall prec emax Hp He, (2 <= prec)%Z -> forall B dbg (a b x y : arg (float_num prec emax Hp He)), 0 <= B <= bpow radix2 (emax - 3) ->
  finite_arg a -> finite_arg b -> finite_arg x -> finite_arg y -> 0 <= B2R (alower a) -> 0 <= B2R (alower b) -> 0 < B2R (alower a) + B2R (alower b) -> bounded_by B x -> bounded_by B y ->
  near_range4 (bpow radix2 (- prec) * (16 * B + 3)) (fun p q r s => (p * r + q * s) / (p + q)) (iblend_linear dbg a b x y) a b x y.
Proof. exact linear_near. Qed.
Print Assumptions C70_linear.
(** The weights, if they are returned; they are unless the exact range is narrow; the only alternative is the failed check of C27. *)
Theorem C70_weights : forall prec emax Hp He, (2 <= prec)%Z -> forall dbg (a b : arg (float_num prec emax Hp He)), finite_arg a -> finite_arg b ->
  0 <= B2R (alower a) -> 0 <= B2R (alower b) -> 0 < B2R (alower a) + B2R (alower b) -> B2R (aupper a) <= bpow radix2 (emax - 2) -> B2R (aupper b) <= bpow radix2 (emax - 2) ->
  forall A B, iweights dbg a b = Ret (A, B) ->
  near_range2 (3 * bpow radix2 (- prec)) (fun p q => p / (p + q)) (Ret A) a b /\ near_range2 (3 * bpow radix2 (- prec)) (fun p q => q / (p + q)) (Ret B) a b.
Proof. exact weights_near. Qed.
Print Assumptions C70_weights.
Theorem C70_weights_return : forall prec emax Hp He, (2 <= prec)%Z -> forall dbg (a b : arg (float_num prec emax Hp He)), finite_arg a -> finite_arg b ->
  0 <= B2R (alower a) -> 0 <= B2R (alower b) -> 0 < B2R (alower a) + B2R (alower b) -> B2R (aupper a) <= bpow radix2 (emax - 2) -> B2R (aupper b) <= bpow radix2 (emax - 2) ->
  B2R (alower a) / (B2R (alower a) + B2R (aupper b)) + 6 * bpow radix2 (- prec) <= B2R (aupper a) / (B2R (aupper a) + B2R (alower b)) -> exists A B, iweights dbg a b = Ret (A, B).
Proof. exact weights_return. Qed.
Print Assumptions C70_weights_return.
Theorem C70_weights_outcome : forall prec emax Hp He, (2 <= prec)%Z -> forall dbg (a b : arg (float_num prec emax Hp He)), finite_arg a -> finite_arg b ->
  0 <= B2R (alower a) -> 0 <= B2R (alower b) -> 0 < B2R (alower a) + B2R (alower b) -> B2R (aupper a) <= bpow radix2 (emax - 2) -> B2R (aupper b) <= bpow radix2 (emax - 2) ->
  iweights dbg a b = FailFast \/ exists A B, iweights dbg a b = Ret (A, B).
Proof. exact weights_outcome. Qed.
Print Assumptions C70_weights_outcome.
(** The functions of numbers. *)
Theorem C70_scalar_weights : forall prec emax Hp He, (2 <= prec)%Z -> forall dbg (v w : binary_float prec emax), is_finite v = true -> is_finite w = true ->
  0 <= B2R v <= bpow radix2 (emax - 2) -> 0 <= B2R w <= bpow radix2 (emax - 2) -> 0 < B2R v + B2R w ->
  exists p q : binary_float prec emax, @sweights (float_num prec emax Hp He) dbg v w = Ret (p, q) /\ is_finite p = true /\ is_finite q = true /\ 0 <= B2R p <= 1 /\ 0 <= B2R q <= 1
  /\ Rabs (B2R p - B2R v / (B2R v + B2R w)) <= 3 * bpow radix2 (- prec) /\ Rabs (B2R q - B2R w / (B2R v + B2R w)) <= 3 * bpow radix2 (- prec).
Proof. exact sweights_near. Qed.
Print Assumptions C70_scalar_weights.
Theorem C70_scalar_fractions : forall prec emax Hp He, (2 <= prec)%Z -> forall dbg (x y : binary_float prec emax) B, is_finite x = true -> is_finite y = true ->
  Rabs (B2R x) <= B -> Rabs (B2R y) <= B -> B <= bpow radix2 (emax - 3) -> forall f : binary_float prec emax, is_finite f = true -> 0 <= B2R f <= 1 ->
  exists z : binary_float prec emax, @sblend_fractions (float_num prec emax Hp He) dbg f x y = Ret z /\ is_finite z = true
  /\ Rabs (B2R z - (B2R f * B2R x + (1 - B2R f) * B2R y)) <= bpow radix2 (- prec) * (6 * B + 3).
Proof. exact sfractions_near. Qed.
Print Assumptions C70_scalar_fractions.
Theorem C70_scalar_linear : forall prec emax Hp He, (2 <= prec)%Z -> forall dbg (v w x y : binary_float prec emax) B, is_finite v = true -> is_finite w = true -> is_finite x = true -> is_finite y = true ->
  0 <= B2R v <= bpow radix2 (emax - 2) -> 0 <= B2R w <= bpow radix2 (emax - 2) -> 0 < B2R v + B2R w -> Rabs (B2R x) <= B -> Rabs (B2R y) <= B -> B <= bpow radix2 (emax - 3) ->
  exists z : binary_float prec emax, @sblend_linear (float_num prec emax Hp He) dbg v w x y = Ret z /\ is_finite z = true
  /\ Rabs (B2R z - (B2R v * B2R x + B2R w * B2R y) / (B2R v + B2R w)) <= bpow radix2 (- prec) * (11 * B + 3).
Proof. exact slinear_near. Qed.
Print Assumptions C70_scalar_linear.
Theorem C70_scalar_quadratic : forall prec emax Hp He, (2 <= prec)%Z -> forall dbg (v w x y : binary_float prec emax) B, is_finite v = true -> is_finite w = true -> is_finite x = true -> is_finite y = true ->
  0 <= B2R v <= bpow radix2 (emax - 2) -> 0 <= B2R w <= bpow radix2 (emax - 2) -> 0 < B2R v + B2R w -> Rabs (B2R x) <= B -> Rabs (B2R y) <= B -> B <= bpow radix2 (emax - 3) ->
  forall L, (4 * B + 2) * (4 * B + 2) <= bpow radix2 (emax - 2) ->
  exists z : binary_float prec emax, sblend_quadratic (float_math prec emax Hp He L) dbg v w x y = Ret (z : float_num prec emax Hp He) /\ is_finite z = true
  /\ Rabs (B2R z - sqrt ((B2R v / (B2R v + B2R w) * B2R x) ^ 2 + (B2R w / (B2R v + B2R w) * B2R y) ^ 2)) <= bpow radix2 (- prec) * (20 * B + 10).
Proof. exact squadratic_near. Qed.
Print Assumptions C70_scalar_quadratic.
(** f = [1/2, 1], a = [1, 2], b = 1, x = [-2, 1], y = [1, 2], B = 2. *)
Example C70_example (h := f64 1 (-1)) (i := f64 1 0) (t := f64 1 1) (n := f64 (-2) 0) (f := Iv (Ivl h i : ivl float64)) (a := Iv (Ivl i t : ivl float64)) (b := Sc (i : float64)) (x := Iv (Ivl n i : ivl float64)) (y := Iv (Ivl i t : ivl float64)) (u := bpow radix2 (-53)) :
  finite_arg f /\ finite_arg a /\ finite_arg b /\ finite_arg x /\ finite_arg y /\ 0 <= B2R (alower f) /\ B2R (aupper f) <= 1 /\ bounded_by 2 x /\ bounded_by 2 y /\ 0 <= 2 <= bpow radix2 (1024 - 3)
  /\ 0 <= B2R (alower a) /\ 0 <= B2R (alower b) /\ 0 < B2R (alower a) + B2R (alower b) /\ B2R (aupper a) <= bpow radix2 (1024 - 2) /\ B2R (aupper b) <= bpow radix2 (1024 - 2)
  /\ B2R (alower a) / (B2R (alower a) + B2R (aupper b)) + 6 * u <= B2R (aupper a) / (B2R (aupper a) + B2R (alower b)) /\ (4 * 2 + 2) * (4 * 2 + 2) <= bpow radix2 (1024 - 2).
Proof. exact blend_example. Qed.
