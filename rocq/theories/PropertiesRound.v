(** Machine intervals and exact real arithmetic (C65). *)
From Coq Require Import Reals ZArith Bool Lra.
From Flocq Require Import Core BinarySingleNaN.
From Verif Require Import Outcome Num IntervalModel MathModel FloatNum FloatMath RoundSpec RoundProofs.
Open Scope R_scope.

Theorem C65_arithmetic : forall prec emax Hp He dbg (x y : arg (float_num prec emax Hp He)), finite_arg x -> finite_arg y ->
  rounded_range2 Rplus (iadd dbg x y) x y /\ rounded_range2 Rminus (isub dbg x y) x y /\ rounded_range2 Rmult (imul dbg x y) x y
  /\ (~ within y 0 -> rounded_range2 Rdiv (idiv dbg x y) x y).
Proof.
  exact (fun prec emax Hp He dbg x y Hx Hy => conj (round_add prec emax Hp He dbg x y Hx Hy) (conj (round_sub prec emax Hp He dbg x y Hx Hy)
    (conj (round_mul prec emax Hp He dbg x y Hx Hy) (round_div prec emax Hp He dbg x y Hx Hy)))).
Qed.
Print Assumptions C65_arithmetic.
Theorem C65_functions : forall prec emax Hp He L dbg (X : ivl (float_num prec emax Hp He)), finite_arg (Iv X) ->
  rounded_range1 Ropp (ineg dbg X) (Iv X) /\ rounded_range1 Rabs (iabs dbg X) (Iv X) /\ rounded_range1 (fun r => r * r) (isquare dbg X) (Iv X)
  /\ (0 <= B2R (lo X) -> rounded_range1 sqrt (isqrt (float_math prec emax Hp He L) dbg X) (Iv X)).
Proof.
  exact (fun prec emax Hp He L dbg X H => conj (round_neg prec emax Hp He dbg X H) (conj (round_abs prec emax Hp He dbg X H)
    (conj (round_square prec emax Hp He dbg X H) (round_sqrt prec emax Hp He L dbg X H)))).
Qed.
Print Assumptions C65_functions.
Theorem C65_half_ulp : forall prec emax Hp He dbg (x y : arg (float_num prec emax Hp He)), finite_arg x -> finite_arg y ->
  nearly_encloses Rplus (iadd dbg x y) x y /\ nearly_encloses Rminus (isub dbg x y) x y /\ nearly_encloses Rmult (imul dbg x y) x y
  /\ (~ within y 0 -> nearly_encloses Rdiv (idiv dbg x y) x y).
Proof.
  exact (fun prec emax Hp He dbg x y Hx Hy => conj (rounded_encloses prec emax Hp He _ _ x y (round_add prec emax Hp He dbg x y Hx Hy))
    (conj (rounded_encloses prec emax Hp He _ _ x y (round_sub prec emax Hp He dbg x y Hx Hy))
    (conj (rounded_encloses prec emax Hp He _ _ x y (round_mul prec emax Hp He dbg x y Hx Hy))
      (fun H => rounded_encloses prec emax Hp He _ _ x y (round_div prec emax Hp He dbg x y Hx Hy H))))).
Qed.
Print Assumptions C65_half_ulp.
(** End points are not rounded outward: [1, 1] + [2^-54, 2^-54] does not contain 1 + 2^-54. *)
Theorem C65_outward_refuted : exists (X Y Z : ivl float64) (r s : R), finite_arg (Iv X) /\ finite_arg (Iv Y) /\ iadd true (Iv X) (Iv Y) = Ret Z
  /\ within (Iv X) r /\ within (Iv Y) s /\ ~ (B2R (lo Z) <= r + s <= B2R (hi Z)).
Proof. exact not_outward. Qed.
Print Assumptions C65_outward_refuted.
Example C65_example : finite_arg (Iv (Ivl (f64 (-3) 0) (f64 5 (-1)) : ivl float64)) /\ finite_arg (Sc (f64 1 (-1) : float64))
  /\ ~ within (Sc (f64 1 (-1) : float64)) 0.
Proof.
  assert (P : forall m e, 0 < F2R (Float radix2 (Z.pos m) e)) by (intros; apply F2R_gt_0; reflexivity).
  assert (N : forall m e, F2R (Float radix2 (Z.neg m) e) < 0) by (intros; apply F2R_lt_0; reflexivity).
  split; [|split].
  - split; [reflexivity|]. split; [reflexivity|].
    change (F2R (Float radix2 (Z.neg 6755399441055744) (-51)) <= F2R (Float radix2 (Z.pos 5629499534213120) (-51))).
    eapply Rle_trans; [left; apply N|left; apply P].
  - split; [reflexivity|]. split; [reflexivity|apply Rle_refl].
  - intros [H _]. change (F2R (Float radix2 (Z.pos 4503599627370496) (-53)) <= 0) in H. pose proof (P 4503599627370496%positive (-53)%Z). lra.
Qed.
