(** Properties of mathematical functions (C20-C26). *)
From Coq Require Import Reals ZArith Bool Lra Lia.
From Flocq Require Import Core BinarySingleNaN.
From Verif Require Import Outcome SetModel Num NumLaws IntervalModel IvlSpec IvlProofs IntNum XReal RealNum FloatNum
  MathModel FloatMath RealMath MathSpec FloatMathProofs WrapProofs MonoProofs TrigProofs Atan2Proofs PowProofs PowProofs2 MathWrap IvlWrap.
Open Scope R_scope.

(** ** C20 *)
Theorem C20_floor : forall N M, fp_math N M -> forall dbg (X : ivl N), proper X -> hull_of (sfloor M) (ifloor M dbg X) X.
Proof. exact (fun N M H dbg X => fp_floor H dbg X). Qed.
Print Assumptions C20_floor.
Theorem C20_ceil : forall N M, fp_math N M -> forall dbg (X : ivl N), proper X -> hull_of (sceil M) (iceil M dbg X) X.
Proof. exact (fun N M H dbg X => fp_ceil H dbg X). Qed.
Print Assumptions C20_ceil.
Theorem C20_round : forall N M, fp_math N M -> forall dbg (X : ivl N), proper X -> hull_of (sround M) (iround M dbg X) X.
Proof. exact (fun N M H dbg X => fp_round H dbg X). Qed.
Print Assumptions C20_round.
Theorem C20_sqrt : forall N M, fp_math N M -> forall dbg (X : ivl N), proper X -> nonneg (lo X) -> hull_of (ssqrt M dbg) (isqrt M dbg X) X.
Proof. exact (fun N M H dbg X => fp_sqrt H dbg X). Qed.
Print Assumptions C20_sqrt.
Theorem C20_sqrt_domain : forall N M, fp_math N M -> forall X : ivl N, proper X -> fails_with_element (ssqrt M true) (isqrt M true X) X.
Proof. exact (fun N M H X => fp_sqrt_fails H X). Qed.
Print Assumptions C20_sqrt_domain.
(** frac(x) is in frac(X) for finite x; missing: x = ±infinity, where the claim is false. *)
Theorem C20_frac_partial : forall N M, fp_math N M -> forall dbg (X : ivl N) (x : N), proper X -> el X x -> finite x ->
  exists Z z, ifrac M dbg X = Ret Z /\ sfrac M x = Ret z /\ el Z z.
Proof. exact (fun N M H dbg X x => fp_frac H dbg X x). Qed.
Print Assumptions C20_frac_partial.
Theorem C20_frac_refuted : forall dbg (L : libm (binary_float 53 1024)), exists (X Z : ivl float64) (x z : float64),
  proper X /\ el X x /\ ifrac (FM64 L) dbg X = Ret Z /\ sfrac (FM64 L) x = Ret z /\ ~ el Z z.
Proof. exact float_frac_inf. Qed.
Print Assumptions C20_frac_refuted.
Theorem C20_floor_meaning : forall prec emax Hp He L (x : float_num prec emax Hp He), is_finite x = true ->
  exists z, sfloor (float_math prec emax Hp He L) x = Ret z /\ is_finite z = true /\ B2R z = IZR (Zfloor (B2R x)).
Proof. exact float_floor_meaning. Qed.
Print Assumptions C20_floor_meaning.
Theorem C20_ceil_meaning : forall prec emax Hp He L (x : float_num prec emax Hp He), is_finite x = true ->
  exists z, sceil (float_math prec emax Hp He L) x = Ret z /\ is_finite z = true /\ B2R z = IZR (Zceil (B2R x)).
Proof. exact float_ceil_meaning. Qed.
Print Assumptions C20_ceil_meaning.
Theorem C20_round_meaning : forall prec emax Hp He L (x : float_num prec emax Hp He), is_finite x = true ->
  exists z, sround (float_math prec emax Hp He L) x = Ret z /\ is_finite z = true /\ B2R z = IZR (ZnearestA (B2R x)).
Proof. exact float_round_meaning. Qed.
Print Assumptions C20_round_meaning.
Example C20_example : forall L, proper (Ivl (f64 3 (-1)) (f64 7 (-1))) /\ nonneg (f64 3 (-1)) /\ el (Ivl (f64 3 (-1)) (f64 7 (-1))) (f64 5 (-1))
  /\ (exists Z, ifloor (FM64 L) true (Ivl (f64 3 (-1)) (f64 7 (-1))) = Ret Z /\ o_eq (lo Z) (f64 1 0) && o_eq (hi Z) (f64 3 0) = true)
  /\ (exists Z, iround (FM64 L) true (Ivl (f64 (-5) (-1)) (f64 5 (-1))) = Ret Z /\ o_eq (lo Z) (f64 (-3) 0) && o_eq (hi Z) (f64 3 0) = true)
  /\ (exists Z, isqrt (FM64 L) true (Ivl (f64 4 0) (f64 9 0)) = Ret Z /\ o_eq (lo Z) (f64 2 0) && o_eq (hi Z) (f64 3 0) = true)
  /\ (exists Z, ifrac (FM64 L) true (Ivl (f64 5 (-2)) (f64 7 (-2))) = Ret Z /\ o_eq (lo Z) (f64 1 (-2)) && o_eq (hi Z) (f64 3 (-2)) = true).
Proof. intros L. split; [reflexivity|]. split; [reflexivity|]. split; [split; reflexivity|]. repeat split; apply ret_witness; vm_compute; reflexivity. Qed.

(** ** C21: any floating-point type whose library function is monotone *)
Theorem C21_cbrt : forall N M, fp_math N M -> increasing anywhere (m_cbrt M) -> forall dbg X, proper X -> hull_of (scbrt M) (icbrt M dbg X) X.
Proof. exact (fun N M H I dbg X P => cbrt_hull (nl_ord N (fp_laws N M H)) M dbg X P I). Qed.
Print Assumptions C21_cbrt.
Theorem C21_exp : forall N M, fp_math N M -> increasing anywhere (m_exp M) -> forall dbg X, proper X -> hull_of (sexp M) (iexp M dbg X) X.
Proof. exact (fun N M H I dbg X P => exp_hull (nl_ord N (fp_laws N M H)) M dbg X P I). Qed.
Print Assumptions C21_exp.
Theorem C21_atan : forall N M, fp_math N M -> increasing anywhere (m_atan M) -> forall dbg X, proper X -> hull_of (satan M) (iatan M dbg X) X.
Proof. exact (fun N M H I dbg X P => atan_hull (nl_ord N (fp_laws N M H)) M dbg X P I). Qed.
Print Assumptions C21_atan.
Theorem C21_log : forall N M, fp_math N M -> increasing nonneg (m_log M) -> forall dbg X, proper X -> nonneg (lo X) -> hull_of (slog M dbg) (ilog M dbg X) X.
Proof. exact (fun N M H I dbg X P Q => log_hull (nl_ord N (fp_laws N M H)) M dbg X P Q I). Qed.
Print Assumptions C21_log.
Theorem C21_asin : forall N M, fp_math N M -> increasing within_one (m_asin M) -> forall dbg X, proper X -> within_one (lo X) -> within_one (hi X) ->
  hull_of (sasin M dbg) (iasin M dbg X) X.
Proof. exact (fun N M H I dbg X P Q R => asin_hull (nl_ord N (fp_laws N M H)) M dbg X P Q R I). Qed.
Print Assumptions C21_asin.
Theorem C21_acos : forall N M, fp_math N M -> decreasing within_one (m_acos M) -> forall dbg X, proper X -> within_one (lo X) -> within_one (hi X) ->
  hull_of (sacos M dbg) (iacos M dbg X) X.
Proof. exact (fun N M H I dbg X P Q R => acos_hull (nl_ord N (fp_laws N M H)) M dbg X P Q R I). Qed.
Print Assumptions C21_acos.
(** In a debug build a domain violation of an element is reported, and only that. *)
Theorem C21_log_domain : forall N M, fp_math N M -> increasing nonneg (m_log M) -> forall X, proper X -> fails_with_element (slog M true) (ilog M true X) X.
Proof. exact (fun N M H I X P => log_fails (nl_ord N (fp_laws N M H)) M X P I). Qed.
Print Assumptions C21_log_domain.
Theorem C21_asin_domain : forall N M, fp_math N M -> increasing within_one (m_asin M) -> forall X, proper X -> fails_with_element (sasin M true) (iasin M true X) X.
Proof. exact (fun N M H I X P => asin_fails (nl_ord N (fp_laws N M H)) M X P I). Qed.
Print Assumptions C21_asin_domain.
Theorem C21_acos_domain : forall N M, fp_math N M -> decreasing within_one (m_acos M) -> forall X, proper X -> fails_with_element (sacos M true) (iacos M true X) X.
Proof. exact (fun N M H I X P => acos_fails (nl_ord N (fp_laws N M H)) M X P I). Qed.
Print Assumptions C21_acos_domain.
(** The exact real functions are monotone, so the hypotheses hold in exact arithmetic. *)
Theorem C21_exact_functions : fp_math real_num real_math /\ increasing anywhere (m_cbrt real_math) /\ increasing anywhere (m_exp real_math) /\ increasing anywhere (m_atan real_math)
  /\ increasing nonneg (m_log real_math) /\ increasing within_one (m_asin real_math) /\ decreasing within_one (m_acos real_math).
Proof. exact (conj fm_real (conj real_cbrt_inc (conj real_exp_inc (conj real_atan_inc (conj real_log_inc (conj real_asin_inc real_acos_dec)))))). Qed.
Print Assumptions C21_exact_functions.
Example C21_example : proper (RI (1 / 2) 1) /\ nonneg (XFin (1 / 2) : real_num) /\ within_one (XFin (1 / 2) : real_num) /\ within_one (XFin 1 : real_num)
  /\ proper (RI (-2) 1) /\ slog real_math true (XFin (-2)) = FailFast.
Proof.
  split; [apply real_le; lra|]. split; [apply real_le; lra|]. split; [split; apply real_le; lra|]. split; [split; apply real_le; lra|]. split; [apply real_le; lra|].
  unfold slog. cbn. now rewrite Rle_bool_false by lra.
Qed.

(** ** C22: exact real arithmetic *)
Theorem C22_cos : forall dbg a b, a <= b -> hull_of (scos real_math) (icos real_math dbg (RI a b)) (RI a b).
Proof. exact real_cos_hull. Qed.
Print Assumptions C22_cos.
Theorem C22_sin : forall dbg a b, a <= b -> hull_of (ssin real_math) (isin real_math dbg (RI a b)) (RI a b).
Proof. exact real_sin_hull. Qed.
Print Assumptions C22_sin.
Example C22_example : -7 <= 100 /\ scos real_math (XFin 0) = Ret (XFin (cos 0)).
Proof. split; [lra|reflexivity]. Qed.

(** ** C23: exact real arithmetic.  Missing: intervals with a pole that are narrower than a period, where the claim is false. *)
Theorem C23_tan_partial : forall dbg a b, a <= b -> b - a < PI -> (forall x, a <= x <= b -> cos x <> 0) ->
  hull_of (stan real_math) (itan real_math dbg (RI a b)) (RI a b).
Proof. exact real_tan_hull. Qed.
Print Assumptions C23_tan_partial.
Theorem C23_tan_wide : forall dbg a b, PI <= b - a -> itan real_math dbg (RI a b) = Ret (Ivl (XNinf : real_num) XPinf).
Proof. exact real_tan_wide. Qed.
Print Assumptions C23_tan_wide.
(** The property holds exactly for these intervals. *)
Theorem C23_tan_iff : forall dbg a b, a <= b ->
  ((exists Z, itan real_math dbg (RI a b) = Ret Z /\ forall x, a <= x <= b -> cos x <> 0 -> el Z (XFin (tan x) : real_num))
   <-> PI <= b - a \/ a = b \/ forall x, a <= x <= b -> cos x <> 0).
Proof. exact real_tan_iff. Qed.
Print Assumptions C23_tan_iff.
Theorem C23_tan_refuted : forall dbg, exists Z : ivl real_num,
  itan real_math dbg (RI 0 (3 * PI / 4)) = Ret Z /\ el (RI 0 (3 * PI / 4)) (XFin (PI / 4)) /\ cos (PI / 4) <> 0 /\ ~ el Z (XFin (tan (PI / 4))).
Proof. exact real_tan_pole. Qed.
Print Assumptions C23_tan_refuted.
Example C23_example : 0 <= 1 /\ 1 - 0 < PI /\ (forall x, 0 <= x <= 1 -> cos x <> 0) /\ PI <= 8 - 1.
Proof.
  pose proof PI_RGT_0. pose proof PI_4. pose proof PI2_3_2. unfold PI2 in *. split; [lra|]. split; [lra|]. split; [|lra]. intros x Hx. apply Rgt_not_eq. apply cos_gt_0; lra.
Qed.

(** ** C24: exact real arithmetic *)
Theorem C24_atan2 : forall dbg (y x : arg real_num) yl yu xl xu, bounds y yl yu -> bounds x xl xu ->
  (touches_cut y x -> exists Z, iatan2 real_math dbg y x = Ret Z /\ nan_ivl Z)
  /\ (~ touches_cut y x -> exists Z, iatan2 real_math dbg y x = Ret Z /\ is_hull (img2 (satan2 real_math dbg) y x) Z).
Proof. exact real_atan2. Qed.
Print Assumptions C24_atan2.
Theorem C24_operands : forall dbg dbg' (y y' x x' : arg real_num) yl yu xl xu, bounds y yl yu -> bounds x xl xu -> bounds y' yl yu -> bounds x' xl xu ->
  exists Z Z', iatan2 real_math dbg y x = Ret Z /\ iatan2 real_math dbg' y' x' = Ret Z' /\ agree Z Z'.
Proof. exact real_atan2_ext. Qed.
Print Assumptions C24_operands.
(** The meaning of the scalar function. *)
Theorem C24_atan2_meaning : forall y x, y <> 0 \/ x <> 0 ->
  - PI < Ratan2 y x <= PI /\ sqrt (x * x + y * y) * cos (Ratan2 y x) = x /\ sqrt (x * x + y * y) * sin (Ratan2 y x) = y.
Proof. exact Ratan2_spec. Qed.
Print Assumptions C24_atan2_meaning.
Example C24_example : bounds (Iv (RI 1 2)) 1 2 /\ bounds (Sc (XFin (-3) : real_num)) (-3) (-3)
  /\ ~ touches_cut (Iv (RI 1 2)) (Sc (XFin (-3) : real_num)) /\ touches_cut (Iv (RI (-1) 2)) (Sc (XFin (-3) : real_num)).
Proof.
  split; [repeat split; lra|]. split; [repeat split; lra|]. split.
  - intros (v & w & [V _] & _ & E & _). destruct v as [| |r|]; try discriminate E; try discriminate V. apply real_eq in E. apply real_le in V. lra.
  - exists (XFin 0), (XFin (-3)). split; [split; apply real_le; lra|]. split; [split; apply real_le; lra|]. split; [now apply real_eq|apply real_le; lra].
Qed.

(** ** C25: exact real arithmetic.  Missing: exponents outside the range of long long with negative bases, where the behaviour is undefined. *)
Theorem C25_pow_nonneg : forall dbg (x y : arg real_num) a b c d, bounds x a b -> bounds y c d -> 0 <= a ->
  exists Z, ipow real_math dbg x y = Ret Z /\ is_hull (img2 (spow real_math) x y) Z.
Proof. exact real_pow_nonneg. Qed.
Print Assumptions C25_pow_nonneg.
Theorem C25_pow_integer_partial : forall dbg (x y : arg real_num) a b (n : Z), bounds x a b -> a < 0 -> bounds y (IZR n) (IZR n) -> (- 2 ^ 63 <= n < 2 ^ 63)%Z ->
  exists Z, ipow real_math dbg x y = Ret Z /\ forall r, a <= r <= b -> el Z (Rpow r (IZR n) : real_num).
Proof. exact real_pow_neg. Qed.
Print Assumptions C25_pow_integer_partial.
Theorem C25_pow_nan_partial : forall dbg (x y : arg real_num) a b c d, bounds x a b -> a < 0 -> bounds y c d -> (c <> d \/ forall n : Z, c <> IZR n) ->
  (- 2 ^ 63 <= Ztrunc c < 2 ^ 63)%Z -> exists Z, ipow real_math dbg x y = Ret Z /\ nan_ivl Z.
Proof. exact real_pow_nan. Qed.
Print Assumptions C25_pow_nan_partial.
Theorem C25_pow_refuted : forall dbg, exists x y : arg real_num,
  aproper x /\ aproper y /\ (exists a b, bounds x a b) /\ (exists n : Z, bounds y (IZR n) (IZR n)) /\ ipow real_math dbg x y = UB.
Proof. exact real_pow_ub_ex. Qed.
Print Assumptions C25_pow_refuted.
(** Machine arithmetic, whatever the C library computes: with a negative base, an exponent that is not a single integer gives NaN; the exponent is converted to
    long long in either case, so one outside the range of that type is undefined behaviour. *)
Theorem C25_pow_negative_machine : forall prec emax Hp He L dbg (x y : arg (float_num prec emax Hp He)), aproper x -> aproper y -> o_lt (aupper x) n_zero = true ->
  (exponent_ok prec emax Hp He (alower y) -> (o_lt (alower y) (aupper y) = true \/ forall n : Z, B2R (alower y : binary_float prec emax) <> IZR n) ->
    exists Z, ipow (float_math prec emax Hp He L) dbg x y = Ret Z /\ nan_ivl Z)
  /\ (~ exponent_ok prec emax Hp He (alower y) -> ipow (float_math prec emax Hp He L) dbg x y = UB).
Proof. exact pow_start. Qed.
Print Assumptions C25_pow_negative_machine.
(** The exponent 2^32 + 1/2 is in range and not an integer; 2^63 is out of range. *)
Example C25_pow_negative_machine_example :
  aproper (O := float64) (Iv (Ivl (f64 (-3) 0) (f64 (-1) 0))) /\ o_lt (f64 (-1) 0) (n_zero : float64) = true
  /\ exponent_ok 53 1024 prec_gt_0_53 prec_lt_emax_64 (f64 (2 ^ 33 + 1) (-1)) /\ (forall n : Z, B2R (f64 (2 ^ 33 + 1) (-1) : binary_float 53 1024) <> IZR n)
  /\ ~ exponent_ok 53 1024 prec_gt_0_53 prec_lt_emax_64 (f64 1 63).
Proof.
  assert (V : B2R (f64 (2 ^ 33 + 1) (-1) : binary_float 53 1024) = IZR (2 ^ 32) + / 2) by (cbn; unfold F2R; cbn; lra).
  split; [reflexivity|]. split; [reflexivity|]. split; [split; [reflexivity|]|]; [|split].
  - rewrite V. rewrite Ztrunc_floor by (cbn; lra). rewrite (Zfloor_imp (2 ^ 32)) by (rewrite plus_IZR; cbn; lra). now split.
  - intros n E. rewrite V in E. assert (G : (2 * 2 ^ 32 + 1 = 2 * n)%Z) by (apply eq_IZR; rewrite plus_IZR, !mult_IZR, <- E; lra). lia.
  - intros [_ [_ K]]. assert (W : B2R (f64 1 63 : binary_float 53 1024) = IZR (2 ^ 63)) by (cbn; unfold F2R; cbn; lra). rewrite W, Ztrunc_IZR in K. now apply Z.lt_irrefl in K.
Qed.
Example C25_example : bounds (Iv (RI (-2) 3)) (-2) 3 /\ bounds (Iv (RI 2 2)) (IZR 2) (IZR 2) /\ bounds (Iv (RI (1 / 2) 3)) (1 / 2) 3
  /\ (1 / 2 <> 3) /\ (- 2 ^ 63 <= Ztrunc (1 / 2) < 2 ^ 63)%Z /\ Rpow (-2) (IZR 2) = XFin (powerRZ (-2) 2).
Proof.
  split; [repeat split; lra|]. split; [repeat split; lra|]. split; [repeat split; lra|]. split; [lra|]. split.
  - rewrite Ztrunc_floor by lra. rewrite (Zfloor_imp 0) by (cbn; lra). now split.
  - unfold Rpow. rewrite Rcompare_Lt by lra. now rewrite Ztrunc_IZR, Req_bool_true.
Qed.

(** ** C26 *)
Theorem C26_exact : forall v mi ma, mi < ma -> exists r, wraparound real_math (XFin v) (XFin mi) (XFin ma) = Ret (XFin r)
  /\ mi <= r < ma /\ (exists k : Z, r = v + IZR k * (ma - mi))
  /\ forall r', mi <= r' < ma -> (exists k : Z, r' = v + IZR k * (ma - mi)) -> r' = r.
Proof. exact real_wrap. Qed.
Print Assumptions C26_exact.
(** In floating-point arithmetic the upper bound can be reached; NaN only if the computation overflows. *)
Theorem C26_float_partial : forall prec emax Hp He L (v mi ma : float_num prec emax Hp He), finite v -> finite mi -> finite ma -> o_lt mi ma = true ->
  exists r, wraparound (float_math prec emax Hp He L) v mi ma = Ret r /\ (nan r \/ (o_le mi r = true /\ o_le r ma = true)).
Proof. exact float_wrap. Qed.
Print Assumptions C26_float_partial.
Theorem C26_small_float_partial : forall prec emax Hp He L (v mi ma : float_num prec emax Hp He), small prec emax v -> small prec emax mi -> small prec emax ma -> o_lt mi ma = true ->
  exists r, wraparound (float_math prec emax Hp He L) v mi ma = Ret r /\ o_le mi r = true /\ o_le r ma = true.
Proof. exact float_wraparound_small. Qed.
Print Assumptions C26_small_float_partial.
Theorem C26_half_open_refuted : forall L : libm (binary_float 53 1024), exists v mi ma r : float64,
  finite v /\ finite mi /\ finite ma /\ o_lt mi ma = true /\ wraparound (FM64 L) v mi ma = Ret r /\ o_eq r ma = true.
Proof. exact float_wraparound_hits_max. Qed.
Print Assumptions C26_half_open_refuted.
Theorem C26_precondition : forall N (M : math N) (v mi ma : N), o_lt mi ma = false -> wraparound M v mi ma = FailFast.
Proof. exact wrap_fails. Qed.
Print Assumptions C26_precondition.
Example C26_example : forall L, - 1 < 1 /\ finite (f64 7 0) /\ small 53 1024 (f64 7 0) /\ o_lt (f64 (-1) 0) (f64 1 0) = true
  /\ (exists r, wraparound (FM64 L) (f64 7 (-1)) (f64 (-1) 0) (f64 1 0) = Ret r /\ o_eq r (f64 (-1) (-1)) = true).
Proof.
  intros L. split; [lra|]. split; [apply float_finite; reflexivity|]. split.
  - split; [reflexivity|]. replace (B2R (f64 7 0)) with 7 by (unfold f64; vm_compute; lra). rewrite Rabs_pos_eq by lra. apply (Rle_trans _ (bpow radix2 3)); [cbn; lra|apply bpow_le; discriminate].
  - split; [reflexivity|]. apply ret_witness. vm_compute. reflexivity.
Qed.
