(** The results on mathematical functions in the form in which they are stated as properties. *)
From Coq Require Import Reals ZArith Bool Lra Lia.
From Flocq Require Import Core BinarySingleNaN.
From Verif Require Import Outcome SetModel Spec SetProofs Num NumLaws IntervalModel IvlSpec IvlProofs ArithProofs IntNum XReal RealNum FloatNum FloatProofs
  MathModel FloatMath RealMath MathSpec MathProofs FloatMathProofs WrapProofs MonoProofs TrigProofs Atan2Proofs PowProofs.
Open Scope R_scope.

Section Fp.
  Context {N : num} {M : math N} (H : fp_math N M).
  Lemma fp_floor dbg X : proper X -> hull_of (sfloor M) (ifloor M dbg X) X.
  Proof. destruct (fp_math_denotes N M H) as (rd & phi & D & HM). apply (floor_hull D HM). Qed.
  Lemma fp_ceil dbg X : proper X -> hull_of (sceil M) (iceil M dbg X) X.
  Proof. destruct (fp_math_denotes N M H) as (rd & phi & D & HM). apply (ceil_hull D HM). Qed.
  Lemma fp_round dbg X : proper X -> hull_of (sround M) (iround M dbg X) X.
  Proof. destruct (fp_math_denotes N M H) as (rd & phi & D & HM). apply (round_hull D HM). Qed.
  Lemma fp_sqrt dbg X : proper X -> nonneg (lo X) -> hull_of (ssqrt M dbg) (isqrt M dbg X) X.
  Proof. destruct (fp_math_denotes N M H) as (rd & phi & D & HM). apply (sqrt_hull D HM). Qed.
  Lemma fp_frac dbg X x : proper X -> el X x -> finite x -> exists Z z, ifrac M dbg X = Ret Z /\ sfrac M x = Ret z /\ el Z z.
  Proof. destruct (fp_math_denotes N M H) as (rd & phi & D & HM). apply (frac_in D HM). Qed.
  Lemma fp_sqrt_fails X : proper X -> fails_with_element (ssqrt M true) (isqrt M true X) X.
  Proof. destruct (fp_math_denotes N M H) as (rd & phi & D & HM). intros HX. apply (sqrt_fails (denotes_ord D) M X HX (sqrt_inc D HM)). Qed.
End Fp.

Section Float.
  Variables (prec emax : Z) (Hp : Prec_gt_0 prec) (He : Prec_lt_emax prec emax) (L : libm (binary_float prec emax)).
  Existing Instance Hp.
  Existing Instance He.
  Let FM := float_math prec emax Hp He L.
  Lemma float_floor_meaning (x : float_num prec emax Hp He) : is_finite x = true ->
    exists z, sfloor FM x = Ret z /\ is_finite z = true /\ B2R z = IZR (Zfloor (B2R x)).
  Proof. intros Hx. eexists. split; [reflexivity|]. destruct (Bnearbyint_correct prec emax He mode_DN x) as (E & F & _). cbn. split; [now rewrite F|]. rewrite E. apply round_FIX_IZR. Qed.
  Lemma float_ceil_meaning (x : float_num prec emax Hp He) : is_finite x = true ->
    exists z, sceil FM x = Ret z /\ is_finite z = true /\ B2R z = IZR (Zceil (B2R x)).
  Proof. intros Hx. eexists. split; [reflexivity|]. destruct (Bnearbyint_correct prec emax He mode_UP x) as (E & F & _). cbn. split; [now rewrite F|]. rewrite E. apply round_FIX_IZR. Qed.
  Lemma float_round_meaning (x : float_num prec emax Hp He) : is_finite x = true ->
    exists z, sround FM x = Ret z /\ is_finite z = true /\ B2R z = IZR (ZnearestA (B2R x)).
  Proof. intros Hx. eexists. split; [reflexivity|]. destruct (Bnearbyint_correct prec emax He mode_NA x) as (E & F & _). cbn. split; [now rewrite F|]. rewrite E. apply round_FIX_IZR. Qed.
End Float.

(** frac of infinity is NaN, which the interval result does not contain *)
Notation FM64 L := (float_math 53 1024 prec_gt_0_53 prec_lt_emax_64 L).
Lemma float_frac_inf dbg (L : libm (binary_float 53 1024)) : exists (X Z : ivl float64) (x z : float64),
  proper X /\ el X x /\ ifrac (FM64 L) dbg X = Ret Z /\ sfrac (FM64 L) x = Ret z /\ ~ el Z z.
Proof.
  exists (Ivl n_zero n_top). eexists. exists n_top. eexists. split; [reflexivity|]. split; [split; reflexivity|].
  split; [destruct dbg; reflexivity|]. split; [reflexivity|]. intros [E _]. discriminate E.
Qed.

(** wraparound *)
Lemma real_wrap v mi ma : mi < ma -> exists r, wraparound real_math (XFin v) (XFin mi) (XFin ma) = Ret (XFin r) /\ mi <= r < ma /\ (exists k : Z, r = v + IZR k * (ma - mi))
  /\ forall r', mi <= r' < ma -> (exists k : Z, r' = v + IZR k * (ma - mi)) -> r' = r.
Proof.
  intros H. exists (Rwrap v mi ma). split; [now apply real_wraparound|]. destruct (Rwrap_spec v mi ma H) as [A B]. split; [exact A|]. split; [exact B|].
  intros r' Hr [k E]. symmetry. now apply (wrap_unique v mi ma r' k).
Qed.
Lemma float_wrap prec emax Hp He L (v mi ma : float_num prec emax Hp He) : finite v -> finite mi -> finite ma -> o_lt mi ma = true ->
  exists r, wraparound (float_math prec emax Hp He L) v mi ma = Ret r /\ (nan r \/ (o_le mi r = true /\ o_le r ma = true)).
Proof.
  rewrite !float_finite. intros A B C D. destruct (float_wraparound prec emax Hp He L v mi ma A B C D) as (r & E & K). exists r. split; [exact E|tauto].
Qed.
(** the function needs distinct bounds *)
Lemma wrap_fails (N : num) (M : math N) (v mi ma : N) : o_lt mi ma = false -> wraparound M v mi ma = FailFast.
Proof. intros H. unfold wraparound. now rewrite H. Qed.

(** pow *)
Lemma real_pow_example : ipow real_math true (Iv (RI (-2) 3)) (Iv (RI 2 2)) <> Ret ivl_default.
Proof.
  destruct (real_pow_neg true (Iv (RI (-2) 3)) (Iv (RI 2 2)) (-2) 3 2) as (Z & -> & H); [repeat split; lra|lra|repeat split; lra|lia|].
  intros E. injection E as ->. destruct (H 3 ltac:(lra)) as [K _]. cbn in K. unfold Rpow in K. rewrite Rcompare_Gt in K by lra. discriminate K.
Qed.
Lemma real_pow_ub_ex dbg : exists x y : arg real_num, aproper x /\ aproper y /\ (exists a b, bounds x a b) /\ (exists n : Z, bounds y (IZR n) (IZR n)) /\ ipow real_math dbg x y = UB.
Proof.
  exists (Iv (RI (-2) (-1))), (Sc (XFin (IZR (2 ^ 63)) : real_num)).
  split; [apply real_le; lra|]. split; [apply real_le; lra|]. split; [exists (-2), (-1); repeat split; lra|]. split; [exists (2 ^ 63)%Z; repeat split; lra|].
  apply (real_pow_ub dbg _ _ (-2) (-1) (IZR (2 ^ 63)) (IZR (2 ^ 63))); [repeat split; lra|lra|repeat split; lra|]. rewrite Ztrunc_IZR. lia.
Qed.
