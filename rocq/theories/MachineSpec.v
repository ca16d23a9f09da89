(** What is assumed of <cmath> and claimed of machine intervals of cos and sin (C66), pow (C67), the other elementary functions (C68) and tan (C69). *)
From Coq Require Import Reals ZArith Bool.
From Flocq Require Import Core BinarySingleNaN.
From Verif Require Import Outcome Num IntervalModel MathModel FloatNum RoundSpec.
Open Scope R_scope.

Section Near.
  Context {prec emax : Z} {Hp : Prec_gt_0 prec} {He : Prec_lt_emax prec emax}.
  Notation F := (float_num prec emax Hp He).
  (** The computed cosine of small arguments is a number of [-1, 1] that differs from the cosine by at most [eps]. *)
  Definition cos_within (eps : R) (c : F -> F) : Prop := forall v : F, is_finite v = true -> Rabs (B2R v) <= 7 ->
    is_finite (c v) = true /\ Rabs (B2R (c v)) <= 1 /\ Rabs (B2R (c v) - cos (B2R v)) <= eps.
  (** Every value of [f] lies in the interval [G] up to [delta], and the end points of [G] are values of [f] up to [delta]. *)
  Definition near_range (delta : R) (f : R -> R) (G : outcome (ivl F)) (x : arg F) : Prop :=
    exists Z, G = Ret Z /\ finite_arg (Iv Z)
      /\ (forall r, within x r -> B2R (lo Z) - delta <= f r <= B2R (hi Z) + delta)
      /\ (exists r, within x r /\ Rabs (f r - B2R (lo Z)) <= delta) /\ (exists r, within x r /\ Rabs (f r - B2R (hi Z)) <= delta).
  Definition near_range2 (delta : R) (f : R -> R -> R) (G : outcome (ivl F)) (x y : arg F) : Prop :=
    exists Z, G = Ret Z /\ finite_arg (Iv Z)
      /\ (forall r s, within x r -> within y s -> B2R (lo Z) - delta <= f r s <= B2R (hi Z) + delta)
      /\ (exists r s, within x r /\ within y s /\ Rabs (f r s - B2R (lo Z)) <= delta) /\ (exists r s, within x r /\ within y s /\ Rabs (f r s - B2R (hi Z)) <= delta).
  Definition near_range3 (delta : R) (f : R -> R -> R -> R) (G : outcome (ivl F)) (x y z : arg F) : Prop :=
    exists Z, G = Ret Z /\ finite_arg (Iv Z)
      /\ (forall r s t, within x r -> within y s -> within z t -> B2R (lo Z) - delta <= f r s t <= B2R (hi Z) + delta)
      /\ (exists r s t, within x r /\ within y s /\ within z t /\ Rabs (f r s t - B2R (lo Z)) <= delta)
      /\ (exists r s t, within x r /\ within y s /\ within z t /\ Rabs (f r s t - B2R (hi Z)) <= delta).
  Definition near_range4 (delta : R) (f : R -> R -> R -> R -> R) (G : outcome (ivl F)) (a b x y : arg F) : Prop :=
    exists Z, G = Ret Z /\ finite_arg (Iv Z)
      /\ (forall p q r s, within a p -> within b q -> within x r -> within y s -> B2R (lo Z) - delta <= f p q r s <= B2R (hi Z) + delta)
      /\ (exists p q r s, within a p /\ within b q /\ within x r /\ within y s /\ Rabs (f p q r s - B2R (lo Z)) <= delta)
      /\ (exists p q r s, within a p /\ within b q /\ within x r /\ within y s /\ Rabs (f p q r s - B2R (hi Z)) <= delta).
  (** The computed function [g] differs from [f] by at most [eps] for arguments between the end points of [x] (and [y]) (C68). *)
  Definition fn_within (eps : R) (f : R -> R) (g : F -> F) (x : arg F) : Prop := forall v : F, is_finite v = true -> within x (B2R v) ->
    is_finite (g v) = true /\ Rabs (B2R (g v) - f (B2R v)) <= eps.
  Definition fn2_within (eps : R) (f : R -> R -> R) (g : F -> F -> F) (x y : arg F) : Prop := forall v w : F, is_finite v = true -> is_finite w = true ->
    within x (B2R v) -> within y (B2R w) -> is_finite (g v w) = true /\ Rabs (B2R (g v w) - f (B2R v) (B2R w)) <= eps.
  (** The computed tangent of arguments up to 5 whose cosine is at least [c] in magnitude differs from the tangent by at most [eps] (C69). *)
  Definition tan_within (eps c : R) (g : F -> F) : Prop := forall v : F, is_finite v = true -> Rabs (B2R v) <= 5 -> c <= Rabs (cos (B2R v)) ->
    is_finite (g v) = true /\ Rabs (B2R (g v) - tan (B2R v)) <= eps.
  Definition inside (a b : R) (G : outcome (ivl F)) : Prop := exists Z, G = Ret Z /\ a <= B2R (lo Z) /\ B2R (hi Z) <= b.
  Definition bounded_by (B : R) (x : arg F) : Prop := Rabs (B2R (alower x)) <= B /\ Rabs (B2R (aupper x)) <= B.
End Near.

(** What pow computes at numbers: exp(w log v), where 0 times anything is 0 (C67). *)
Definition pow_formula {N : num} (M : math N) (v w : N) : outcome N :=
  e <- (if o_eq w n_zero then Ret n_zero else n_mul w (m_log M v)) ;; Ret (m_exp M e).
(** Negative bases: the sign is that of a power with the integer exponent [k]. *)
Definition pow_signed {N : num} (M : math N) (k : Z) (v w : N) : outcome N :=
  if o_le n_zero v then pow_formula M v w
  else n <- n_neg v ;; r <- pow_formula M n w ;; if Z.even k then Ret r else n_neg r.

(** The accuracy of log and exp, and what follows for pow (C67). *)
Section NearPow.
  Context {prec emax : Z} {Hp : Prec_gt_0 prec} {He : Prec_lt_emax prec emax}.
  Notation F := (float_num prec emax Hp He).
  (** The computed logarithm of positive numbers whose logarithm is at most [Lam] differs from it by at most [el]. *)
  Definition log_within (el Lam : R) (l : F -> F) : Prop := forall v : F, is_finite v = true -> 0 < B2R v -> Rabs (ln (B2R v)) <= Lam ->
    is_finite (l v) = true /\ Rabs (B2R (l v) - ln (B2R v)) <= el.
  (** The computed exponential of arguments up to [T] has a relative error of at most [ex]. *)
  Definition exp_within (ex T : R) (f : F -> F) : Prop := forall v : F, is_finite v = true -> Rabs (B2R v) <= T ->
    is_finite (f v) = true /\ Rabs (B2R (f v) - exp (B2R v)) <= ex * exp (B2R v).
  (** Every power lies in the interval [G], and the end points of [G] are powers, up to the factor (1 + [ex]) exp([E]) or (1 - [ex]) exp(-[E]). *)
  Definition near_powers (ex E : R) (G : outcome (ivl F)) (x y : arg F) : Prop :=
    exists Z, G = Ret Z /\ finite_arg (Iv Z)
      /\ (forall r s, within x r -> within y s -> B2R (lo Z) <= (1 + ex) * exp E * Rpower r s /\ (1 - ex) * exp (- E) * Rpower r s <= B2R (hi Z))
      /\ (exists r s, within x r /\ within y s /\ (1 - ex) * exp (- E) * Rpower r s <= B2R (lo Z) <= (1 + ex) * exp E * Rpower r s)
      /\ (exists r s, within x r /\ within y s /\ (1 - ex) * exp (- E) * Rpower r s <= B2R (hi Z) <= (1 + ex) * exp E * Rpower r s).
End NearPow.
