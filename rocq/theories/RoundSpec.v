(** Machine intervals compared with exact real arithmetic (C65).  Rounding is the function of Flocq's definition of the
    IEEE-754 formats: to nearest, ties to even, with gradual underflow. *)
From Coq Require Import Reals ZArith Bool.
From Flocq Require Import Core BinarySingleNaN.
From Verif Require Import Outcome Num IntervalModel FloatNum.
Open Scope R_scope.

Definition rn (prec emax : Z) (r : R) : R := round radix2 (FLT_exp (3 - emax - prec) prec) ZnearestE r.
Definition half_ulp (prec emax : Z) (r : R) : R := / 2 * ulp radix2 (FLT_exp (3 - emax - prec) prec) r.
(** [z] is [r] rounded; an infinity if the rounded number is too large. *)
Definition nearest {prec emax : Z} (r : R) (z : binary_float prec emax) : Prop :=
  (Rabs (rn prec emax r) < bpow radix2 emax -> is_finite z = true /\ B2R z = rn prec emax r)
  /\ (bpow radix2 emax <= Rabs (rn prec emax r) -> z = B754_infinity (Rlt_bool r 0)).

Section Range.
  Context {prec emax : Z} {Hp : Prec_gt_0 prec} {He : Prec_lt_emax prec emax}.
  Notation F := (float_num prec emax Hp He).
  Implicit Types x y : arg F.
  (** Operands with finite end points in order. *)
  Definition finite_arg x : Prop := is_finite (alower x) = true /\ is_finite (aupper x) = true /\ B2R (alower x) <= B2R (aupper x).
  (** The real number [r] lies between the end points. *)
  Definition within x (r : R) : Prop := B2R (alower x) <= r <= B2R (aupper x).
  (** [l], [u] are the least and the greatest value of [f] at real numbers between the end points. *)
  Definition range1 (f : R -> R) x (l u : R) : Prop :=
    (forall r, within x r -> l <= f r <= u) /\ (exists r, within x r /\ f r = l) /\ (exists r, within x r /\ f r = u).
  Definition range2 (f : R -> R -> R) x y (l u : R) : Prop :=
    (forall r s, within x r -> within y s -> l <= f r s <= u)
    /\ (exists r s, within x r /\ within y s /\ f r s = l) /\ (exists r s, within x r /\ within y s /\ f r s = u).
  Definition rounded_range1 (f : R -> R) (G : outcome (ivl F)) x : Prop :=
    exists Z l u, G = Ret Z /\ range1 f x l u /\ nearest l (lo Z) /\ nearest u (hi Z).
  Definition rounded_range2 (f : R -> R -> R) (G : outcome (ivl F)) x y : Prop :=
    exists Z l u, G = Ret Z /\ range2 f x y l u /\ nearest l (lo Z) /\ nearest u (hi Z).
  (** The exact results exceed finite end points by at most half a unit in the last place. *)
  Definition nearly_encloses (f : R -> R -> R) (G : outcome (ivl F)) x y : Prop :=
    exists Z, G = Ret Z /\ forall r s, within x r -> within y s ->
      (is_finite (lo Z) = true -> B2R (lo Z) - half_ulp prec emax (B2R (lo Z)) <= f r s)
      /\ (is_finite (hi Z) = true -> f r s <= B2R (hi Z) + half_ulp prec emax (B2R (hi Z))).
End Range.
