(** IEEE-754 binary floating-point numbers as a value type of intervals (the [std::floating_point] instances of
    interval<T>, interval.hpp 716-782): float, double.  The operators are the correctly rounded ones of Flocq (round to
    nearest, ties to even; one NaN).  Simplification: no excess precision, the default rounding mode, no floating-point
    exceptions; NaN payloads and signs are identified. *)
From Coq Require Import ZArith Bool.
From Flocq Require Import Core BinarySingleNaN.
From Verif Require Import Outcome Num.

Section Float.
  Variables (prec emax : Z) (Hp : Prec_gt_0 prec) (He : Prec_lt_emax prec emax).
  Existing Instance Hp.
  Existing Instance He.

  Definition float_ordty : ordty := {|
    car := binary_float prec emax;
    o_lt := Bltb; o_le := Bleb; o_eq := Beqb;
    o_disc := false; o_succ := fun a => Ret a; o_pred := fun a => Ret a
  |}.
  Definition float_num : num := {|
    n_ord := float_ordty;
    n_float := true;
    n_top := B754_infinity false;
    n_bot := B754_infinity true;
    n_nan := B754_nan;
    n_zero := B754_zero false;
    n_one := Bone;
    n_mone := Bopp Bone;
    n_neg := fun a : float_ordty => Ret (Bopp a : float_ordty);
    n_abs := fun a : float_ordty => Ret (Babs a : float_ordty);
    n_add := fun a b : float_ordty => Ret (Bplus mode_NE a b : float_ordty);
    n_sub := fun a b : float_ordty => Ret (Bminus mode_NE a b : float_ordty);
    n_mul := fun a b : float_ordty => Ret (Bmult mode_NE a b : float_ordty);
    n_div := fun a b : float_ordty => Ret (Bdiv mode_NE a b : float_ordty)
  |}.
End Float.

(** [float], [double]. *)
Lemma prec_gt_0_24 : Prec_gt_0 24. Proof. reflexivity. Qed.
Lemma prec_lt_emax_32 : Prec_lt_emax 24 128. Proof. reflexivity. Qed.
Lemma prec_gt_0_53 : Prec_gt_0 53. Proof. reflexivity. Qed.
Lemma prec_lt_emax_64 : Prec_lt_emax 53 1024. Proof. reflexivity. Qed.
Definition float32 : num := float_num 24 128 prec_gt_0_24 prec_lt_emax_32.
Definition float64 : num := float_num 53 1024 prec_gt_0_53 prec_lt_emax_64.
(** The literal m * 2^e, rounded to double; used in examples. *)
Definition f64 (m e : Z) : float64 := @binary_normalize 53 1024 prec_gt_0_53 prec_lt_emax_64 mode_NE m e false.
