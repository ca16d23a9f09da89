(** Properties of blending, classification and narrowing (C27-C29). *)
From Coq Require Import Reals ZArith Bool Lra Lia.
From Flocq Require Import Core BinarySingleNaN.
From Verif Require Import Outcome SetModel Spec Num NumLaws IntervalModel IvlSpec IntNum XReal RealNum FloatNum
  MathModel FloatMath RealMath MathSpec FloatMathProofs WrapProofs TrigProofs Atan2Proofs BlendProofs NarrowProofs IvlWrap AlgoProofs4.
Open Scope R_scope.

(** ** C27: exact hulls in exact arithmetic *)
Theorem C27_fractional_weights : forall dbg (a b : arg real_num) al au bl bu, bounds a al au -> bounds b bl bu -> 0 <= al -> 0 <= bl -> 0 < al + bl ->
  exists A B, iweights dbg a b = Ret (A, B)
    /\ is_hull (fun z => exists w, weight_pairs dbg a b (z, w)) A /\ is_hull (fun w => exists z, weight_pairs dbg a b (z, w)) B
    /\ subset A (RI 0 1) /\ subset B (RI 0 1).
Proof. exact real_weights. Qed.
Print Assumptions C27_fractional_weights.
Theorem C27_blend_fractions : forall dbg (f x y : arg real_num) fl fh xl xh yl yh, bounds f fl fh -> bounds x xl xh -> bounds y yl yh -> 0 <= fl -> fh <= 1 ->
  exists Z, iblend_fractions dbg f x y = Ret Z /\ is_hull (blends dbg f x y) Z.
Proof. exact real_blend_fractions. Qed.
Print Assumptions C27_blend_fractions.
Theorem C27_blend_linear : forall dbg (a b x y : arg real_num) al au bl bu xl xh yl yh,
  bounds a al au -> bounds b bl bu -> bounds x xl xh -> bounds y yl yh -> 0 <= al -> 0 <= bl -> 0 < al + bl ->
  exists Z, iblend_linear dbg a b x y = Ret Z /\ is_hull (weighted_blends dbg a b x y) Z.
Proof. exact real_blend_linear. Qed.
Print Assumptions C27_blend_linear.
(** The scalar functions blended over are the weighted means. *)
Theorem C27_scalar : forall dbg a b x y, 0 <= a -> 0 <= b -> 0 < a + b ->
  @sblend_linear real_num dbg (XFin a) (XFin b) (XFin x) (XFin y) = Ret (XFin (mixed (a / (a + b)) x y) : real_num).
Proof. exact sblend_linear_real. Qed.
Print Assumptions C27_scalar.
Theorem C27_scalar_quadratic : forall dbg a b x y, 0 <= a -> 0 <= b -> 0 < a + b ->
  sblend_quadratic real_math dbg (XFin a : real_num) (XFin b) (XFin x) (XFin y) = Ret (XFin (sqrt ((a / (a + b) * x) ^ 2 + (b / (a + b) * y) ^ 2)) : real_num).
Proof. exact sblend_quadratic_real. Qed.
Print Assumptions C27_scalar_quadratic.
(** Machine arithmetic: valid arguments never fail; missing: fractional_weights, for which this is false. *)
Theorem C27_blend_fractions_returns : forall N M, fp_math N M -> forall dbg (f x y : arg N), aproper f -> aproper x -> aproper y ->
  nonneg (alower f) -> o_le (aupper f) n_one = true -> exists Z, iblend_fractions dbg f x y = Ret Z.
Proof. exact (fun N M H dbg f x y => fp_blend_fractions H dbg f x y). Qed.
Print Assumptions C27_blend_fractions_returns.
Theorem C27_blend_linear_returns : forall N M, fp_math N M -> forall dbg (a b x y : arg N) s, aproper a -> aproper b -> aproper x -> aproper y ->
  nonneg (alower a) -> nonneg (alower b) -> n_add (alower a) (alower b) = Ret s -> o_lt n_zero s = true ->
  exists Z, iblend_linear dbg a b x y = Ret Z.
Proof. exact (fun N M H dbg a b x y s => fp_blend_linear H dbg a b x y s). Qed.
Print Assumptions C27_blend_linear_returns.
Theorem C27_fractional_weights_refuted : forall dbg, exists a b : arg float64,
  aproper a /\ aproper b /\ nonneg (alower a) /\ nonneg (alower b) /\ finite (aupper a) /\ finite (aupper b)
  /\ (exists s, n_add (alower a) (alower b) = Ret s /\ o_lt n_zero s = true) /\ iweights dbg a b = FailFast.
Proof. exact weights_fail. Qed.
Print Assumptions C27_fractional_weights_refuted.
Example C27_example : bounds (Iv (RI 0 2)) 0 2 /\ bounds (Iv (RI 1 3)) 1 3 /\ bounds (Sc (XFin (1 / 2) : real_num)) (1 / 2) (1 / 2) /\ 0 < 0 + 1
  /\ weighted_blends true (Iv (RI 0 2)) (Iv (RI 1 3)) (Iv (RI 5 6)) (Sc (XFin 7 : real_num)) (XFin (mixed (1 / (1 + 1)) 6 7)).
Proof.
  split; [repeat split; lra|]. split; [repeat split; lra|]. split; [repeat split; lra|]. split; [lra|].
  exists (XFin 1), (XFin 1), (XFin 6), (XFin 7). do 4 (split; [split; apply real_le; cbn; lra|]). apply sblend_linear_real; lra.
Qed.
Example C27_machine_example : aproper heavy /\ nonneg (alower heavy) /\ nonneg (alower light) /\ (exists s, n_add (alower heavy) (alower light) = Ret s /\ o_lt n_zero s = true)
  /\ (exists Z, iblend_linear true heavy light heavy light = Ret Z /\ assigned Z = true).
Proof.
  split; [reflexivity|]. split; [reflexivity|]. split; [reflexivity|]. split; apply ret_witness; vm_compute; reflexivity.
Qed.

(** ** C28 *)
Theorem C28_isinf : forall N M, fp_math N M -> forall dbg (X : ivl N), proper X -> exists s, iisinf dbg X = Ret s /\ wf_set s
  /\ (member s true <-> exists v, el X v /\ infinite v) /\ (member s false <-> exists v, el X v /\ ~ infinite v).
Proof. exact (fun N M H dbg X => isinf_exact H dbg X). Qed.
Print Assumptions C28_isinf.
(** Missing: NaN intervals, for which it is false. *)
Theorem C28_isfinite_partial : forall N M, fp_math N M -> forall dbg (X : ivl N), proper X -> exists s, iisfinite dbg X = Ret s /\ wf_set s
  /\ (member s true <-> exists v, el X v /\ finite v) /\ (member s false <-> exists v, el X v /\ ~ finite v).
Proof. exact (fun N M H dbg X => isfinite_exact H dbg X). Qed.
Print Assumptions C28_isfinite_partial.
Theorem C28_isfinite_refuted : forall dbg, exists X : ivl float64, nan_ivl X /\ assigned X = true /\ iisfinite dbg X = Ret (bset_of true).
Proof. exact isfinite_nan. Qed.
Print Assumptions C28_isfinite_refuted.
Theorem C28_isnan : forall N M, fp_math N M -> forall dbg (X : ivl N),
  (proper X -> iisnan dbg X = Ret (bset_of false)) /\ (nan_ivl X -> iisnan dbg X = Ret bset_both).
Proof. exact (fun N M H dbg X => conj (isnan_proper H dbg X) (isnan_nan H dbg X)). Qed.
Print Assumptions C28_isnan.
(** Numbers. *)
Theorem C28_scalar : forall prec emax Hp He (v : float_num prec emax Hp He),
  nan_b v = match v with B754_nan => true | _ => false end /\ inf_b v = match v with B754_infinity _ => true | _ => false end /\ finite_b v = is_finite (v : binary_float prec emax).
Proof. exact classify_float. Qed.
Print Assumptions C28_scalar.
Example C28_example : let X : ivl float64 := Ivl (f64 1 0) n_top in
  proper X /\ el X n_top /\ infinite (n_top : float64) /\ el X (f64 3 0) /\ finite (f64 3 0) /\ iisinf true X = Ret bset_both /\ iisfinite true X = Ret bset_both.
Proof.
  split; [reflexivity|]. split; [split; reflexivity|]. split; [split; [reflexivity|left; reflexivity]|]. split; [split; reflexivity|]. split; [apply float_finite; reflexivity|]. split; reflexivity.
Qed.

(** ** C29 *)
Theorem C29_narrow : forall (w w' : Z) (Hw' : (2 <= w')%Z) (X : ivl (int_ordty w)), assigned X = true ->
  (representable w' (val (lo X)) /\ representable w' (val (hi X)) ->
     exists Y, narrow_ Hw' X = Ret Y /\ narrow_failfast_ Hw' X = Ret Y /\ assigned Y = true /\ same_integers X Y)
  /\ (~ (representable w' (val (lo X)) /\ representable w' (val (hi X))) -> narrow_ Hw' X = Throw /\ narrow_failfast_ Hw' X = FailFast).
Proof. exact (fun w w' Hw' X => narrow_spec Hw' X). Qed.
Print Assumptions C29_narrow.
Theorem C29_unassigned : forall (w w' : Z) (Hw' : (2 <= w')%Z) (X : ivl (int_ordty w)), assigned X = false ->
  narrow_ Hw' X = Ret (@ivl_default (int_num w' Hw')) /\ narrow_failfast_ Hw' X = Ret (@ivl_default (int_num w' Hw')) /\ narrow_cast_ Hw' X = Ret (@ivl_default (int_num w' Hw'))
  /\ assigned (@ivl_default (int_num w' Hw')) = false.
Proof. exact (fun w w' Hw' X => narrow_unassigned Hw' X). Qed.
Print Assumptions C29_unassigned.
Theorem C29_narrow_cast : forall (w w' : Z) (Hw' : (2 <= w')%Z) (X : ivl (int_ordty w)), assigned X = true ->
  representable w' (val (lo X)) -> representable w' (val (hi X)) -> exists Y, narrow_cast_ Hw' X = Ret Y /\ assigned Y = true /\ same_integers X Y.
Proof. exact (fun w w' Hw' X => narrow_cast_spec Hw' X). Qed.
Print Assumptions C29_narrow_cast.
Example C29_example : let X := @Ivl (int_ordty 64) (i64 (-7)) (i64 9) in let Y := @Ivl (int_ordty 64) (i64 5) (i64 (2 ^ 40)) in
  assigned X = true /\ representable 32 (val (lo X)) /\ representable 32 (val (hi X))
  /\ assigned Y = true /\ ~ representable 32 (val (hi Y)) /\ assigned (@Ivl (int_ordty 64) (i64 1) (i64 0)) = false.
Proof.
  unfold representable. split; [reflexivity|]. split; [split; [discriminate|reflexivity]|]. split; [split; [discriminate|reflexivity]|]. split; [reflexivity|]. split; [|reflexivity]. intros [_ K]. discriminate K.
Qed.
