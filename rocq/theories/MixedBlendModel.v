(** The blending helpers with operands of different value types (interval.hpp 1258-1337).

    The templates take operands of any types whose common type is a floating-point type.  The model has fractions and weights of
    one type [W] and values of the common type [T]: [int] or [float] weights for [interval<double>].  Built-in operators between
    operands of type [W], including the literal 1, are computed in [W]; with one operand of type [T] the other is converted by
    [c].  [fractional_weights] has operands of types [L] and [R] and the common type [T], as in MixedArithModel.v. *)
From Coq Require Import Bool ZArith.
From Verif Require Import Outcome SetModel Num IntervalModel MathModel MixedArithModel.

Section Blend.
  Context {W T : num} (c : W -> T) (dbg : bool).
  Implicit Types (f a b : arg W) (x y : arg T).

  (** [blend_fractions] (interval.hpp 1278-1301): [1 - qlo] has the type of the fraction. *)
  Definition mixed_blend_fractions f x y : outcome (ivl T) :=
    expects_debug dbg (aassigned f && aassigned x && aassigned y) ;;;
    check dbg (always_fraction dbg f) ;;;
    let qlo := if o_le (alower y) (alower x) then alower f else aupper f in
    let qhi := if o_le (aupper y) (aupper x) then aupper f else alower f in
    p <- n_mul (c qlo) (alower x) ;; g <- n_sub n_one qlo ;; q <- n_mul (c g) (alower y) ;; rlo <- n_add p q ;;
    p <- n_mul (c qhi) (aupper x) ;; g <- n_sub n_one qhi ;; q <- n_mul (c g) (aupper y) ;; rhi <- n_add p q ;;
    from_unordered_bounds rlo rhi.
  (** [blend_linear] (interval.hpp 1303-1337): the quotient, the sum and the reciprocal have the type of the weights, and so has
      [interval{ qlo, qhi }]. *)
  Definition mixed_blend_linear a b x y : outcome (ivl T) :=
    expects_debug dbg (aassigned a && aassigned b && aassigned x && aassigned y) ;;;
    check dbg (always_nonneg dbg a) ;;; check dbg (always_nonneg dbg b) ;;; check dbg (always_positive_sum dbg a b) ;;;
    q <- n_div (aupper b) (alower a) ;; d <- n_add n_one q ;; qlo <- n_div n_one d ;;
    q <- n_div (alower b) (aupper a) ;; d <- n_add n_one q ;; qhi <- n_div n_one d ;;
    F <- mk qlo qhi ;;
    mixed_blend_fractions (Iv F) x y.
End Blend.

Section Weights.
  Context {L R T : num} (cl : L -> T) (cr : R -> T) (dbg : bool).
  Implicit Types (a : arg L) (b : arg R).

  (** [always(a + b > 0)] in [fractional_weights] (interval.hpp 1266). *)
  Definition mixed_positive_sum a b : outcome bool :=
    match a, b with
    | Sc v, Sc w => s <- lift cl cr n_add v w ;; Ret (o_lt n_zero s)
    | _, _ => s <- mixed_add cl cr dbg a b ;; p <- rel_gt dbg (Iv s) (Sc n_zero) ;; Ret (always p)
    end.
  (** [fractional_weights] (interval.hpp 1258-1276). *)
  Definition mixed_weights a b : outcome (ivl T * ivl T) :=
    expects_debug dbg (aassigned a && aassigned b) ;;;
    check dbg (always_nonneg dbg a) ;;; check dbg (always_nonneg dbg b) ;;; check dbg (mixed_positive_sum a b) ;;;
    let alo := cl (alower a) in let ahi := cl (aupper a) in let blo := cr (alower b) in let bhi := cr (aupper b) in
    s <- n_add alo bhi ;; t <- n_add ahi blo ;;
    p <- n_div alo s ;; q <- n_div ahi t ;; A <- mk p q ;;
    p <- n_div blo t ;; q <- n_div bhi s ;; B <- mk p q ;;
    Ret (A, B).
End Weights.
