(** Properties of operands of different value types (C55, C56) and of conversions of intervals (C57). *)
From Coq Require Import ZArith Reals Bool.
From Flocq Require Import Core BinarySingleNaN.
From Verif Require Import Outcome SetModel Spec Num NumLaws IntervalModel IvlSpec IntNum IntProofs FloatNum FloatProofs XReal ValueTypes MathModel AlgoProofs4 MixedModel
  MixedArithModel MixedArithSpec MixedArithProofs ConvProofs ConvProofs2 MixedRefute IvlWrap.

(** ** C55.  [cl], [cr]: the usual arithmetic conversions to the common type.  [extends f F x y]: [F] returns a result exactly if
    the scalar operator [f] is defined on all pairs of elements; the result is NaN if some pointwise result is NaN, and their hull
    otherwise. *)
Theorem C55_add : forall L R T cl cr, value_type T -> converts L T cl -> converts R T cr -> forall dbg (x : arg L) (y : arg R), aproper x -> aproper y ->
  extends (fun u v => n_add (cl u) (cr v)) (mixed_add cl cr dbg x y) x y.
Proof.
  exact (fun L R T cl cr HT CL CR => let L1 := converts_laws L T cl HT CL in let R1 := converts_laws R T cr HT CR in
    mixed_add_extends (proj1 L1) (proj1 R1) (proj1 (proj2 L1)) cl cr (proj2 (proj2 L1)) (proj2 (proj2 R1))).
Qed.
Print Assumptions C55_add.
Theorem C55_sub : forall L R T cl cr, value_type T -> converts L T cl -> converts R T cr -> forall dbg (x : arg L) (y : arg R), aproper x -> aproper y ->
  extends (fun u v => n_sub (cl u) (cr v)) (mixed_sub cl cr dbg x y) x y.
Proof.
  exact (fun L R T cl cr HT CL CR => let L1 := converts_laws L T cl HT CL in let R1 := converts_laws R T cr HT CR in
    mixed_sub_extends (proj1 L1) (proj1 R1) (proj1 (proj2 L1)) cl cr (proj2 (proj2 L1)) (proj2 (proj2 R1))).
Qed.
Print Assumptions C55_sub.
Theorem C55_mul : forall L R T cl cr, value_type T -> converts L T cl -> converts R T cr -> forall dbg (x : arg L) (y : arg R), aproper x -> aproper y ->
  extends (fun u v => n_mul (cl u) (cr v)) (mixed_mul cl cr dbg x y) x y.
Proof.
  exact (fun L R T cl cr HT CL CR => let L1 := converts_laws L T cl HT CL in let R1 := converts_laws R T cr HT CR in
    mixed_mul_extends (proj1 L1) (proj1 R1) (proj1 (proj2 L1)) cl cr (proj2 (proj2 L1)) (proj2 (proj2 R1))).
Qed.
Print Assumptions C55_mul.
(** Division by an operand without zero. *)
Theorem C55_div : forall L R T cl cr, value_type T -> converts L T cl -> converts R T cr -> forall dbg (x : arg L) (y : arg R), aproper x -> aproper y ->
  ~ (exists v, ael y v /\ is_zero v) -> extends (fun u v => n_div (cl u) (cr v)) (mixed_div cl cr dbg x y) x y.
Proof.
  exact (fun L R T cl cr HT CL CR => let L1 := converts_laws L T cl HT CL in let R1 := converts_laws R T cr HT CR in
    mixed_div_extends (proj1 L1) (proj1 R1) (proj1 (proj2 L1)) cl cr (proj2 (proj2 L1)) (proj2 (proj2 R1))).
Qed.
Print Assumptions C55_div.
(** Floating-point division by any operand: NaN exactly if some quotient is NaN. *)
Theorem C55_div_nan : forall L R T cl cr, value_type T -> converts L T cl -> converts R T cr -> forall dbg (x : arg L) (y : arg R), aproper x -> aproper y -> n_float T = true ->
  exists Z, mixed_div cl cr dbg x y = Ret Z /\ (nan_image (fun u v => n_div (cl u) (cr v)) x y -> nan_ivl Z) /\ (~ nan_image (fun u v => n_div (cl u) (cr v)) x y -> proper Z).
Proof.
  exact (fun L R T cl cr HT CL CR => let L1 := converts_laws L T cl HT CL in let R1 := converts_laws R T cr HT CR in
    mixed_div_nan_exact (proj1 L1) (proj1 R1) (proj1 (proj2 L1)) cl cr (proj2 (proj2 L1)) (proj2 (proj2 R1))).
Qed.
Print Assumptions C55_div_nan.
(** Integer division by an interval: a trap exactly if the divisor contains zero. *)
(** A zero end point of the divisor must have the sign of the interior after the conversion, as in C16. *)
Theorem C55_div_encloses : forall L R T cl cr, value_type T -> converts L T cl -> converts R T cr -> forall dbg (x : arg L) (y : arg R), aproper x -> aproper y -> n_float T = true ->
  ~ nan_image (fun u v => n_div (cl u) (cr v)) x y -> (neg_zero (cr (alower y)) -> is_zero (aupper y)) -> (pos_zero (cr (aupper y)) -> is_zero (alower y)) ->
  exists Z, mixed_div cl cr dbg x y = Ret Z /\ forall u v q, ael x u -> ael y v -> ~ is_zero v -> n_div (cl u) (cr v) = Ret q -> el Z q.
Proof.
  exact (fun L R T cl cr HT CL CR => let L1 := converts_laws L T cl HT CL in let R1 := converts_laws R T cr HT CR in
    mixed_div_encloses (proj1 L1) (proj1 R1) (proj1 (proj2 L1)) cl cr (proj2 (proj2 L1)) (proj2 (proj2 R1))).
Qed.
Print Assumptions C55_div_encloses.
Example C55_div_encloses_example : ~ neg_zero (int_to_double (i32 0))
  /\ (exists Z, mixed_div same_double int_to_double true (Sc (f64 1 0)) (Iv (Ivl (i32 0) (i32 4) : ivl int32)) = Ret Z /\ matches_ivl Z (Ivl (f64 1 (-2)) n_top) = true)
  /\ (exists Z, mixed_div same_double int_to_double true (Sc (f64 1 0)) (Iv (Ivl (i32 (-1)) (i32 4) : ivl int32)) = Ret Z /\ matches_ivl Z (Ivl n_bot n_top) = true).
Proof. split; [intros [_ H]; vm_compute in H; discriminate H|]. split; apply ret_witness; vm_compute; reflexivity. Qed.
Theorem C55_div_trap : forall L R T cl cr, value_type T -> converts L T cl -> converts R T cr -> forall dbg (x : arg L) (Y : ivl R), aproper x -> proper Y -> n_float T = false ->
  (mixed_div cl cr dbg x (Iv Y) = Trap <-> exists v, el Y v /\ is_zero v).
Proof.
  exact (fun L R T cl cr HT CL CR => let L1 := converts_laws L T cl HT CL in let R1 := converts_laws R T cr HT CR in
    mixed_div_trap (proj1 L1) (proj1 R1) (proj1 (proj2 L1)) cl cr (proj2 (proj2 L1)) (proj2 (proj2 R1))).
Qed.
Print Assumptions C55_div_trap.
Example C55_example : converts int32 float64 int_to_double /\ converts float64 float64 same_double
  /\ (exists Z, mixed_mul int_to_double same_double true (Iv (Ivl (i32 (-1)) (i32 3) : ivl int32)) (Sc (f64 1 (-1))) = Ret Z /\ matches_ivl Z (Ivl (f64 (-1) (-1)) (f64 3 (-1))) = true)
  /\ (exists Z, mixed_div same_double int_to_double true (Sc (f64 1 0)) (Iv (Ivl (i32 1) (i32 4) : ivl int32)) = Ret Z /\ matches_ivl Z (Ivl (f64 1 (-2)) (f64 1 0)) = true)
  /\ nan_image (fun u v => n_mul (same_double u) (int_to_double v)) (Sc n_top) (Iv (Ivl (i32 (-1)) (i32 3) : ivl int32)).
Proof.
  split; [exact converts_int_double|]. split; [exact (cv_same float64)|]. split; [apply ret_witness; vm_compute; reflexivity|]. split; [apply ret_witness; vm_compute; reflexivity|].
  exists n_nan. split; [|reflexivity]. exists n_top, (i32 0). split; [split; reflexivity|]. split; [split; reflexivity|]. vm_compute. reflexivity.
Qed.
(** Divisors with zero at an end: as for operands of one type (C16), quotients by the other divisors can be missing. *)
Theorem C55_div_refuted : exists (Y : ivl int32) (Z : ivl float64) (v : int32) (q : float64),
  proper Y /\ el Y v /\ ~ is_zero v /\ mixed_div same_double int_to_double true (Sc (f64 1 0)) (Iv Y) = Ret Z /\ proper Z
  /\ n_div (f64 1 0) (int_to_double v) = Ret q /\ ~ el Z q.
Proof. exact mixed_div_end. Qed.
Print Assumptions C55_div_refuted.

(** ** C56 *)
Theorem C56_less : forall L R T cl cr, value_type T -> converts L T cl -> converts R T cr -> forall dbg (x : arg L) (y : arg R), aproper x -> aproper y ->
  exists s, mixed_lt cl cr dbg x y = Ret s /\ wf_set s /\ forall t : bool, member s t <-> truths (fun u v => o_lt (cl u) (cr v)) x y t.
Proof.
  exact (fun L R T cl cr HT CL CR => let L1 := converts_laws L T cl HT CL in let R1 := converts_laws R T cr HT CR in
    mixed_lt_exact (proj1 L1) (proj1 R1) (proj1 (proj2 L1)) cl cr (proj2 (proj2 L1)) (proj2 (proj2 R1))).
Qed.
Print Assumptions C56_less.
Theorem C56_less_equal : forall L R T cl cr, value_type T -> converts L T cl -> converts R T cr -> forall dbg (x : arg L) (y : arg R), aproper x -> aproper y ->
  exists s, mixed_leq cl cr dbg x y = Ret s /\ wf_set s /\ forall t : bool, member s t <-> truths (fun u v => o_le (cl u) (cr v)) x y t.
Proof.
  exact (fun L R T cl cr HT CL CR => let L1 := converts_laws L T cl HT CL in let R1 := converts_laws R T cr HT CR in
    mixed_leq_exact (proj1 L1) (proj1 R1) (proj1 (proj2 L1)) cl cr (proj2 (proj2 L1)) (proj2 (proj2 R1))).
Qed.
Print Assumptions C56_less_equal.
(** Missing compared with C56: "equal" can be reported as possible although no pair of elements is equal (C56_equal_refuted). *)
Theorem C56_equal_partial : forall L R T cl cr, value_type T -> converts L T cl -> converts R T cr -> forall dbg (x : arg L) (y : arg R), aproper x -> aproper y ->
  exists s, mixed_eq cl cr dbg x y = Ret s /\ wf_set s /\ (member s (false : bool) <-> truths (fun u v => o_eq (cl u) (cr v)) x y false)
    /\ (truths (fun u v => o_eq (cl u) (cr v)) x y true -> member s (true : bool)).
Proof.
  exact (fun L R T cl cr HT CL CR => let L1 := converts_laws L T cl HT CL in let R1 := converts_laws R T cr HT CR in
    mixed_eq_spec (proj1 L1) (proj1 R1) (proj1 (proj2 L1)) cl cr (proj2 (proj2 L1)) (proj2 (proj2 R1))).
Qed.
Print Assumptions C56_equal_partial.
Theorem C56_not_equal_partial : forall L R T cl cr, value_type T -> converts L T cl -> converts R T cr -> forall dbg (x : arg L) (y : arg R), aproper x -> aproper y ->
  exists s, mixed_neq cl cr dbg x y = Ret s /\ wf_set s /\ (member s (true : bool) <-> truths (fun u v => o_eq (cl u) (cr v)) x y false)
    /\ (truths (fun u v => o_eq (cl u) (cr v)) x y true -> member s (false : bool)).
Proof.
  exact (fun L R T cl cr HT CL CR => let L1 := converts_laws L T cl HT CL in let R1 := converts_laws R T cr HT CR in
    mixed_neq_spec (proj1 L1) (proj1 R1) (proj1 (proj2 L1)) cl cr (proj2 (proj2 L1)) (proj2 (proj2 R1))).
Qed.
Print Assumptions C56_not_equal_partial.
Example C56_example : let X := Ivl (f64 1 (-2)) (f64 3 (-2)) : ivl float64 in let Y := Ivl (i32 0) (i32 1) : ivl int32 in
  proper X /\ proper Y /\ mixed_lt same_double int_to_double true (Iv X) (Iv Y) = Ret bset_both
  /\ mixed_lt same_double int_to_double true (Iv X) (Sc (i32 1)) = Ret (bset_of true)
  /\ truths (fun u v => o_lt (same_double u) (int_to_double v)) (Iv X) (Iv Y) false.
Proof.
  split; [reflexivity|]. split; [reflexivity|]. split; [reflexivity|]. split; [reflexivity|]. exists (f64 1 (-2)), (i32 0).
  split; [split; vm_compute; reflexivity|]. split; [split; reflexivity|]. vm_compute. reflexivity.
Qed.
Theorem C56_equal_refuted : exists (X : ivl float64) (Y : ivl int32) s, proper X /\ proper Y /\ mixed_eq same_double int_to_double true (Iv X) (Iv Y) = Ret s
  /\ member s (true : bool) /\ ~ truths (fun u v => o_eq (same_double u) (int_to_double v)) (Iv X) (Iv Y) true.
Proof. exact mixed_eq_wide. Qed.
Print Assumptions C56_equal_refuted.

(** ** C57 *)
(** The converting constructor: the usual arithmetic conversions, integers to any floating-point format, between any two
    floating-point formats, floating-point numbers to integers. *)
Theorem C57_convert_partial : forall (U T : num) (c : U -> outcome T) (X : ivl U), scalar_conversion U T c -> proper X ->
  (defined1 c X <-> exists Z, iconvert c X = Ret Z) /\ (forall Z, iconvert c X = Ret Z -> is_hull (img1 c X) Z).
Proof. exact convert_hull. Qed.
Print Assumptions C57_convert_partial.
Theorem C57_convert_unassigned : forall (U T : num) (c : U -> outcome T) (X : ivl U), scalar_conversion U T c -> assigned X = false ->
  exists Z, iconvert c X = Ret Z /\ Z = ivl_default /\ assigned Z = false.
Proof. exact convert_unassigned. Qed.
Print Assumptions C57_convert_unassigned.
(** Missing in C57_convert_partial: conversions to a narrower integer type wrap around and lose elements. *)
Theorem C57_convert_refuted : exists (X : ivl int64) (Z : ivl int32) (v : int64), proper X /\ el X v
  /\ iconvert (fun a : int64 => Ret (narrow_cast_value (w := 64) (w' := 32) ltac:(discriminate) a : int32)) X = Ret Z
  /\ ~ el Z (narrow_cast_value (w := 64) (w' := 32) ltac:(discriminate) v).
Proof. exact convert_wraps. Qed.
Print Assumptions C57_convert_refuted.
(** [narrow], [narrow_failfast] to a smaller floating-point format: success exactly if both end points are numbers of the smaller
    format; the result then has the same end points.  [fits v]: [v] is not NaN and a number of the smaller format. *)
Theorem C57_narrow : forall (prec emax prec' emax' : Z) (Hp : Prec_gt_0 prec) (He : Prec_lt_emax prec emax) (Hp' : Prec_gt_0 prec') (He' : Prec_lt_emax prec' emax'), (prec' <= prec)%Z -> (emax' <= emax)%Z -> forall X : ivl (float_num prec emax Hp He), assigned X = true ->
  (fits Hp He Hp' He' (lo X) /\ fits Hp He Hp' He' (hi X) -> exists Y, inarrow_float Hp He Hp' He' X = Ret Y /\ inarrow_failfast_float Hp He Hp' He' X = Ret Y
     /\ inarrow_cast_float Hp He Hp' He' X = Ret Y /\ same_numbers Hp He Hp' He' X Y)
  /\ (~ (fits Hp He Hp' He' (lo X) /\ fits Hp He Hp' He' (hi X)) -> inarrow_float Hp He Hp' He' X = Throw /\ inarrow_failfast_float Hp He Hp' He' X = FailFast).
Proof. exact (fun prec emax prec' emax' Hp He Hp' He' P E => narrow_float_spec Hp He Hp' He' P E). Qed.
Print Assumptions C57_narrow.
Theorem C57_narrow_cast : forall (prec emax prec' emax' : Z) (Hp : Prec_gt_0 prec) (He : Prec_lt_emax prec emax) (Hp' : Prec_gt_0 prec') (He' : Prec_lt_emax prec' emax') (X : ivl (float_num prec emax Hp He)), proper X ->
  exists Y, inarrow_cast_float Hp He Hp' He' X = Ret Y /\ is_hull (img1 (fun a : float_num prec emax Hp He => Ret (float_conv prec emax prec' emax' Hp' He' a : float_num prec' emax' Hp' He')) X) Y.
Proof. exact (fun prec emax prec' emax' Hp He Hp' He' => narrow_cast_float_hull Hp He Hp' He'). Qed.
Print Assumptions C57_narrow_cast.
Theorem C57_narrow_unassigned : forall (prec emax prec' emax' : Z) (Hp : Prec_gt_0 prec) (He : Prec_lt_emax prec emax) (Hp' : Prec_gt_0 prec') (He' : Prec_lt_emax prec' emax') (X : ivl (float_num prec emax Hp He)), assigned X = false ->
  @inarrow_float prec emax prec' emax' Hp He Hp' He' X = Ret ivl_default /\ @inarrow_failfast_float prec emax prec' emax' Hp He Hp' He' X = Ret ivl_default
  /\ @inarrow_cast_float prec emax prec' emax' Hp He Hp' He' X = Ret ivl_default.
Proof. exact (fun prec emax prec' emax' Hp He Hp' He' => narrow_float_unassigned Hp He Hp' He'). Qed.
Print Assumptions C57_narrow_unassigned.
(** The scalar conversions.  [rounded prec emax r neg z]: [z] is [r] rounded to nearest, ties to even, with the sign [neg]. *)
Theorem C57_rounding : forall (prec emax prec' emax' : Z) (Hp' : Prec_gt_0 prec') (He' : Prec_lt_emax prec' emax') (a : binary_float prec emax),
  match a with
  | B754_nan => float_conv prec emax prec' emax' Hp' He' a = B754_nan
  | B754_infinity s => float_conv prec emax prec' emax' Hp' He' a = B754_infinity s
  | _ => rounded prec' emax' (B2R a) (Bsign a) (float_conv prec emax prec' emax' Hp' He' a)
  end.
Proof. exact float_conv_rounded. Qed.
Print Assumptions C57_rounding.
Theorem C57_rounding_int : forall (w prec emax : Z) (Hp : Prec_gt_0 prec) (He : Prec_lt_emax prec emax) (n : int w),
  rounded prec emax (IZR (val n)) (val n <? 0)%Z (int_to_float w prec emax Hp He n).
Proof. exact int_to_float_rounded. Qed.
Print Assumptions C57_rounding_int.
Theorem C57_truncation : forall (prec emax : Z) (Hp : Prec_gt_0 prec) (He : Prec_lt_emax prec emax) (w : Z) (a : binary_float prec emax),
  (forall n : int w, float_to_int prec emax w a = Ret n <-> is_finite a = true /\ val n = Ztrunc (B2R a))
  /\ (float_to_int prec emax w a = UB <-> is_finite a = false \/ (is_finite a = true /\ ~ (int_min w <= Ztrunc (B2R a) <= int_max w)%Z)).
Proof. exact float_to_int_truncates. Qed.
Print Assumptions C57_truncation.
(** 2^24 + 1 and 2^24 + 3 are ties between neighbouring single-precision numbers. *)
Example C57_rounding_example : Beqb (double_to_float (f64 16777217 0)) (int_to_float 64 24 128 prec_gt_0_24 prec_lt_emax_32 (i64 16777216)) = true
  /\ Beqb (int_to_float 64 24 128 prec_gt_0_24 prec_lt_emax_32 (i64 16777219)) (double_to_float (f64 16777220 0)) = true
  /\ double_to_float (B754_zero true) = B754_zero true /\ is_finite (double_to_float (f64 1 128)) = false /\ float_to_int 53 1024 32 (f64 1 31) = UB.
Proof. split; [vm_compute; reflexivity|]. split; [vm_compute; reflexivity|]. split; [reflexivity|]. split; [vm_compute; reflexivity|]. reflexivity. Qed.
Example C57_example : let X := Ivl (f64 1 (-1)) (f64 3 0) : ivl float64 in let Y := Ivl (f64 1 (-1)) (f64 1 300) : ivl float64 in
  proper X /\ scalar_conversion float64 int32 (float_to_int 53 1024 32) /\ defined1 (float_to_int 53 1024 32 : float64 -> outcome int32) X
  /\ (exists Z, iconvert (float_to_int 53 1024 32 : float64 -> outcome int32) X = Ret Z /\ matches_ivl Z (Ivl (i32 0) (i32 3) : ivl int32) = true)
  /\ (exists Z, inarrow_float prec_gt_0_53 prec_lt_emax_64 prec_gt_0_24 prec_lt_emax_32 X = Ret Z /\ assigned Z = true)
  /\ inarrow_float prec_gt_0_53 prec_lt_emax_64 prec_gt_0_24 prec_lt_emax_32 Y = Throw
  /\ (exists Z, inarrow_cast_float prec_gt_0_53 prec_lt_emax_64 prec_gt_0_24 prec_lt_emax_32 Y = Ret Z /\ is_pinf (hi Z) = true).
Proof.
  cbv zeta. assert (E : exists Z, iconvert (float_to_int 53 1024 32 : float64 -> outcome int32) (Ivl (f64 1 (-1)) (f64 3 0)) = Ret Z /\ matches_ivl Z (Ivl (i32 0) (i32 3) : ivl int32) = true)
    by (apply ret_witness; vm_compute; reflexivity).
  split; [reflexivity|]. split; [apply sc_float_int|].
  split. { apply (convert_hull float64 int32 _ _ (sc_float_int _ _ _ _ _ _)); [reflexivity|]. destruct E as (Z & HZ & _). eauto. }
  split; [exact E|]. split; [apply ret_witness; vm_compute; reflexivity|]. split; [vm_compute; reflexivity|]. apply ret_witness; vm_compute; reflexivity.
Qed.
