(** Vocabulary for operators on operands of different value types. *)
From Coq Require Import ZArith Reals Bool.
From Flocq Require Import Core BinarySingleNaN.
From Verif Require Import Outcome SetModel Spec Num NumLaws IntervalModel IvlSpec.

(** Some pointwise result is NaN. *)
Definition nan_image {O1 O2 O' : ordty} (f : O1 -> O2 -> outcome O') (a : arg O1) (b : arg O2) : Prop := exists z, img2 f a b z /\ nan z.
(** The operator [F] extends [f] to the operands [x], [y]: it returns a result exactly if [f] is defined on all pairs; the
    result is NaN if some pointwise result is, and the hull of the pointwise results otherwise. *)
Definition extends {O1 O2 O' : ordty} (f : O1 -> O2 -> outcome O') (F : outcome (ivl O')) (x : arg O1) (y : arg O2) : Prop :=
  (defined2 f x y <-> exists Z, F = Ret Z)
  /\ forall Z, F = Ret Z -> (nan_image f x y -> nan_ivl Z) /\ (~ nan_image f x y -> is_hull (img2 f x y) Z).
(** [s] contains the truth values of the comparison [f] of elements of [x] with elements of [y]. *)
Definition truths {O1 O2 : ordty} (f : O1 -> O2 -> bool) (x : arg O1) (y : arg O2) (t : bool) : Prop := exists u v, ael x u /\ ael y v /\ f u v = t.

(** [z] is the real number [r] rounded to nearest, ties to even, [neg] the sign also of a zero result; an infinity if the rounded number is too large. *)
Definition rounded (prec emax : Z) (r : R) (neg : bool) (z : binary_float prec emax) : Prop :=
  let q := round radix2 (FLT_exp (3 - emax - prec) prec) ZnearestE r in
  is_nan z = false /\ Bsign z = neg
  /\ (Rabs q < bpow radix2 emax -> is_finite z = true /\ B2R z = q)%R /\ (bpow radix2 emax <= Rabs q -> is_finite z = false)%R.
