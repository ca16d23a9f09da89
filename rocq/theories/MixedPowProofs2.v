(** The conversion of a large odd exponent can change the sign of a power (C72). *)
From Coq Require Import Reals Bool ZArith.
From Flocq Require Import Core BinarySingleNaN.
From Verif Require Import Outcome SetModel Num IntervalModel IntNum MathModel FloatNum FloatMath MixedModel MixedPowModel IvlSpec IvlWrap AlgoProofs4 MathSpec NumLaws.

(** A C library whose logarithm and exponential function are constant; they are exact at the arguments used below. *)
Definition unit_libm : libm (binary_float 53 1024) :=
  Build_libm (binary_float 53 1024) (fun x => x) (fun _ => f64 0 0) (fun _ => f64 1 0) (fun x _ => x) (fun x => x) (fun x => x) (fun x => x)
    (fun x => x) (fun x => x) (fun x => x) (fun x _ => x) (f64 3 0).
Lemma conversion_changes_sign : exists (L : libm (binary_float 53 1024)) (n : int64), let M := float_math 53 1024 prec_gt_0_53 prec_lt_emax_64 L in
  let c := int_to_float 64 53 1024 prec_gt_0_53 prec_lt_emax_64 in let x := Iv (Ivl (f64 (-1) 0) (f64 (-1) 0)) : arg float64 in
  l_log L (f64 1 0) = f64 0 0 /\ l_exp L (f64 0 0) = f64 1 0 /\ @increasing float64 nonneg (m_log M) /\ @increasing float64 anywhere (m_exp M)
  /\ val n = (2 ^ 53 + 1)%Z
  /\ (exists Z, @mixed_pow 64 le_2_64 float64 M c true x (Sc n) = Ret Z /\ (o_eq (lo Z) (f64 (-1) 0) && o_eq (hi Z) (f64 (-1) 0))%bool = true)
  /\ (exists Z, ipow M true x (conv_arg (I := int64) (O := float64) c (Sc n)) = Ret Z /\ (o_eq (lo Z) (f64 1 0) && o_eq (hi Z) (f64 1 0))%bool = true).
Proof.
  exists unit_libm, (i64 9007199254740993). cbv zeta. split; [reflexivity|]. split; [reflexivity|]. split; [intros a b _ _ _; reflexivity|]. split; [intros a b _ _ _; reflexivity|].
  split; [reflexivity|]. split; apply ret_witness; vm_compute; reflexivity.
Qed.
