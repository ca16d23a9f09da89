(** Vocabulary for mathematical functions on intervals. *)
From Coq Require Import Reals ZArith Bool.
From Flocq Require Import Core BinarySingleNaN.
From Verif Require Import Outcome Num NumLaws IntervalModel IvlSpec IntNum FloatNum XReal RealNum MathModel FloatMath RealMath.

(** The floating-point value types with their <cmath>: any IEEE-754 binary format with any library for the unspecified functions,
    and the exact-arithmetic idealisation. *)
Inductive fp_math : forall N : num, math N -> Prop :=
| fm_float prec emax Hp He L : fp_math (float_num prec emax Hp He) (float_math prec emax Hp He L)
| fm_real : fp_math real_num real_math.

(** [f] does not decrease (increase) between numbers satisfying [P], and gives numbers there. *)
Definition increasing {N : num} (P : N -> Prop) (f : N -> N) : Prop :=
  forall a b : N, P a -> P b -> o_le a b = true -> o_le (f a) (f b) = true.
Definition decreasing {N : num} (P : N -> Prop) (f : N -> N) : Prop :=
  forall a b : N, P a -> P b -> o_le a b = true -> o_le (f b) (f a) = true.
(** Domains. *)
Definition anywhere {N : num} (v : N) : Prop := True.
Definition nonneg {N : num} (v : N) : Prop := o_le n_zero v = true.
Definition within_one {N : num} (v : N) : Prop := o_le n_mone v = true /\ o_le v n_one = true.
Definition finite {N : num} (v : N) : Prop := ~ nan v /\ ~ infinite v.
(** The interval result is the hull of the pointwise results. *)
Definition hull_of {N : num} (f : N -> outcome N) (F : outcome (ivl N)) (X : ivl N) : Prop :=
  exists Z, F = Ret Z /\ is_hull (img1 f X) Z.
(** A checked function fails on the interval exactly if it fails on an element. *)
Definition fails_with_element {N : num} (f : N -> outcome N) (F : outcome (ivl N)) (X : ivl N) : Prop :=
  F = FailFast <-> exists x, el X x /\ f x = FailFast.
