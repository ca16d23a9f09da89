(** Arithmetic and relational operators on operands of different value types (interval.hpp 47-186, 205-275, 315-414) and
    the converting constructor (interval.hpp 740-748, 810-818).

    The operators are templates over two operand types.  With value types [L], [R] and common type [T]
    ([common_interval_value_t], type_traits.hpp 37-40) the usual arithmetic conversions [cl : L -> T], [cr : R -> T] apply to the
    operands of every built-in operator; tests for infinities and comparisons with the literal 0 look at an operand before it
    is converted.  Compound assignments and braces do not occur: the results already have the common type. *)
From Coq Require Import Bool ZArith.
From Flocq Require Import Core BinarySingleNaN.
From Verif Require Import Outcome SetModel Num IntervalModel IntNum FloatNum MixedModel.
Open Scope Z_scope.

Section Mixed.
  Context {L R T : num} (cl : L -> T) (cr : R -> T) (dbg : bool).
  Implicit Types (x : arg L) (y : arg R).

  (** Built-in operators applied to operands of types [L], [R]. *)
  Definition lift {A} (f : T -> T -> A) (u : L) (v : R) : A := f (cl u) (cr v).

  (** binary [+], [-] (interval.hpp 205-238). *)
  Definition mixed_add x y : outcome (ivl T) :=
    expects_debug dbg (aassigned x && aassigned y) ;;;
    if n_float T && ((is_ninf (alower x) && is_pinf (aupper y)) || (is_ninf (alower y) && is_pinf (aupper x)))
    then nan_interval
    else l <- lift n_add (alower x) (alower y) ;; u <- lift n_add (aupper x) (aupper y) ;; mk l u.
  Definition mixed_sub x y : outcome (ivl T) :=
    expects_debug dbg (aassigned x && aassigned y) ;;;
    if n_float T && ((is_ninf (alower x) && is_ninf (alower y)) || (is_pinf (aupper y) && is_pinf (aupper x)))
    then nan_interval
    else l <- lift n_sub (alower x) (aupper y) ;; u <- lift n_sub (aupper x) (alower y) ;; mk l u.

  (** [*] (interval.hpp 239-275); [hull2]/[hull4] as in IntervalModel.v. *)
  Definition mixed_mul x y : outcome (ivl T) :=
    expects_debug dbg (aassigned x && aassigned y) ;;;
    if n_float T && (((is_ninf (alower x) || is_pinf (aupper x)) && acontains y n_zero)
                     || (acontains x n_zero && (is_ninf (alower y) || is_pinf (aupper y))))
    then nan_interval
    else match x, y with
         | Sc a, _ => v1 <- lift n_mul a (alower y) ;; v2 <- lift n_mul a (aupper y) ;; hull2 v1 v2
         | Iv X, Sc b => v1 <- lift n_mul (lo X) b ;; v2 <- lift n_mul (hi X) b ;; hull2 v1 v2
         | Iv X, Iv Y =>
             v1 <- lift n_mul (lo X) (lo Y) ;; v2 <- lift n_mul (lo X) (hi Y) ;;
             v3 <- lift n_mul (hi X) (lo Y) ;; v4 <- lift n_mul (hi X) (hi Y) ;; hull4 v1 v2 v3 v4
         end.

  (** [/] (interval.hpp 315-414). *)
  Definition mixed_div x y : outcome (ivl T) :=
    expects_debug dbg (aassigned x && aassigned y) ;;;
    match x, y with
    | Sc a, _ =>
        if n_float T then
          if (is_ninf a || is_pinf a) && (is_ninf (alower y) || is_pinf (aupper y)) then nan_interval
          else if o_eq a n_zero && o_le (alower y) n_zero && o_le n_zero (aupper y) then nan_interval
          else if negb (o_eq a n_zero) && o_lt (alower y) n_zero && o_lt n_zero (aupper y) then inf_interval
          else v1 <- lift n_div a (alower y) ;; v2 <- lift n_div a (aupper y) ;; hull2 v1 v2
        else
          if o_le (alower y) n_zero && o_le n_zero (aupper y) then Trap
          else v1 <- lift n_div a (alower y) ;; v2 <- lift n_div a (aupper y) ;; hull2 v1 v2
    | Iv X, Sc b =>
        if n_float T && ((is_ninf (lo X) || is_pinf (hi X)) && (is_ninf b || is_pinf b)) then nan_interval
        else if n_float T && (o_le (lo X) n_zero && o_le n_zero (hi X) && o_eq b n_zero) then nan_interval
        else v1 <- lift n_div (lo X) b ;; v2 <- lift n_div (hi X) b ;; hull2 v1 v2
    | Iv X, Iv Y =>
        if n_float T then
          if (is_ninf (lo X) || is_pinf (hi X)) && (is_ninf (lo Y) || is_pinf (hi Y)) then nan_interval
          else if o_le (lo X) n_zero && o_le n_zero (hi X) && o_le (lo Y) n_zero && o_le n_zero (hi Y) then nan_interval
          else if (o_lt n_zero (lo X) || o_lt (hi X) n_zero) && o_lt (lo Y) n_zero && o_lt n_zero (hi Y) then inf_interval
          else v1 <- lift n_div (lo X) (lo Y) ;; v2 <- lift n_div (lo X) (hi Y) ;;
               v3 <- lift n_div (hi X) (lo Y) ;; v4 <- lift n_div (hi X) (hi Y) ;; hull4 v1 v2 v3 v4
        else
          if o_le (lo Y) n_zero && o_le n_zero (hi Y) then Trap
          else v1 <- lift n_div (lo X) (lo Y) ;; v2 <- lift n_div (lo X) (hi Y) ;;
               v3 <- lift n_div (hi X) (lo Y) ;; v4 <- lift n_div (hi X) (hi Y) ;; hull4 v1 v2 v3 v4
    end.

  (** [compare_eq], [compare_neq], [compare_lt], [compare_leq] (interval.hpp 47-106) and the truth values of the relational
      operators (interval.hpp 109-186); [a >= b] is written [b <= a].  [rlift] is [lift] with the operands exchanged. *)
  Definition rlift {A} (f : T -> T -> A) (v : R) (u : L) : A := f (cr v) (cl u).
  Definition mixed_compare_eq x y : bset :=
    let result := set_empty in
    let result := if lift o_le (alower x) (aupper y) && rlift o_le (alower y) (aupper x) then bassign result true else result in
    if negb (lift o_eq (alower x) (aupper y)) || negb (lift o_eq (aupper x) (alower y)) then bassign result false else result.
  Definition mixed_compare_neq x y : bset :=
    let result := set_empty in
    let result := if lift o_le (alower x) (aupper y) && rlift o_le (alower y) (aupper x) then bassign result false else result in
    if negb (lift o_eq (alower x) (aupper y)) || negb (lift o_eq (aupper x) (alower y)) then bassign result true else result.
  Definition mixed_compare_lt x y : bset :=
    let result := set_empty in
    let result := if lift o_lt (alower x) (aupper y) then bassign result true else result in
    if rlift o_le (alower y) (aupper x) then bassign result false else result.
  Definition mixed_compare_leq x y : bset :=
    let result := set_empty in
    let result := if lift o_le (alower x) (aupper y) then bassign result true else result in
    if rlift o_lt (alower y) (aupper x) then bassign result false else result.
  Definition mixed_pre x y : outcome unit := expects_debug dbg (aassigned x && aassigned y).
  Definition mixed_eq x y : outcome bset := mixed_pre x y ;;; Ret (mixed_compare_eq x y).
  Definition mixed_neq x y : outcome bset := mixed_pre x y ;;; Ret (mixed_compare_neq x y).
  Definition mixed_lt x y : outcome bset := mixed_pre x y ;;; Ret (mixed_compare_lt x y).
  Definition mixed_leq x y : outcome bset := mixed_pre x y ;;; Ret (mixed_compare_leq x y).
End Mixed.

(** [interval<T>(interval_base<U> const&)] for another value type (interval.hpp 740-748, 810-818); the scalar conversion can be
    undefined behaviour. *)
Definition iconvert {U T : num} (c : U -> outcome T) (X : ivl U) : outcome (ivl T) :=
  if assigned X then l <- c (lo X) ;; u <- c (hi X) ;; Ret (Ivl l u) else Ret ivl_default.

(** Conversion of a floating-point number to another format: rounding to nearest, ties to even; the value is unchanged if it
    is representable. *)
Definition float_conv (prec emax prec' emax' : Z) (Hp' : Prec_gt_0 prec') (He' : Prec_lt_emax prec' emax') (a : binary_float prec emax)
  : binary_float prec' emax' :=
  match a with
  | B754_zero s => B754_zero s
  | B754_infinity s => B754_infinity s
  | B754_nan => B754_nan
  | B754_finite s m e _ => @binary_normalize prec' emax' Hp' He' mode_NE (cond_Zopp s (Zpos m)) e s
  end.
(** [float] to [double], [double] to [float]. *)
Definition float_to_double (a : float32) : float64 := float_conv 24 128 53 1024 prec_gt_0_53 prec_lt_emax_64 a.
Definition double_to_float (a : float64) : float32 := float_conv 53 1024 24 128 prec_gt_0_24 prec_lt_emax_32 a.

(** Conversion to a wider integer type. *)
Lemma range_wider w w' z : 2 <= w -> w <= w' -> in_range w z = true -> in_range w' z = true.
Proof.
  unfold in_range, int_min, int_max. intros H1 H2 H. apply andb_true_iff in H as [A B]. apply Z.leb_le in A, B.
  assert (P : 2 ^ (w - 1) <= 2 ^ (w' - 1)) by (apply Z.pow_le_mono_r; [reflexivity|now apply Z.sub_le_mono_r]).
  apply andb_true_iff. split; apply Z.leb_le.
  - apply (Z.le_trans _ (- 2 ^ (w - 1))); [now apply Z.opp_le_mono in P|exact A].
  - apply (Z.le_trans _ (2 ^ (w - 1) - 1)); [exact B|now apply Z.sub_le_mono_r].
Qed.
Definition int_widen (w w' : Z) (Hw : 2 <= w) (H : w <= w') (a : int w) : int w' :=
  exist _ (val a) (range_wider w w' (val a) Hw H (proj2_sig a)).

(** Conversion of a floating-point number to an integer: truncation; undefined behaviour if the result is not representable. *)
Definition float_to_int (prec emax w : Z) (a : binary_float prec emax) : outcome (int w) :=
  if is_finite a then int_of w (Btrunc a) else UB.

(** Narrowing conversions of intervals between floating-point formats (interval.hpp 1391-1423).  The scalar conversions are
    those of gsl-lite: [narrow_cast] is a static_cast, [narrow] throws and [narrow_failfast] fails fast if converting the
    result back does not give the same value.  A static_cast out of range of the target gives an infinity (IEEE-754). *)
Section NarrowFloat.
  Context {prec emax prec' emax' : Z} (Hp : Prec_gt_0 prec) (He : Prec_lt_emax prec emax) (Hp' : Prec_gt_0 prec') (He' : Prec_lt_emax prec' emax').
  Notation U := (float_num prec emax Hp He).
  Notation T := (float_num prec' emax' Hp' He').
  Definition narrow_cast_float (v : U) : T := float_conv prec emax prec' emax' Hp' He' v.
  Definition keeps_value (v : U) : bool := o_eq (float_conv prec' emax' prec emax Hp He (narrow_cast_float v) : U) v.
  Definition narrow_float (v : U) : outcome T := if keeps_value v then Ret (narrow_cast_float v) else Throw.
  Definition narrow_failfast_float (v : U) : outcome T := if keeps_value v then Ret (narrow_cast_float v) else FailFast.
  Definition inarrow_float (X : ivl U) : outcome (ivl T) :=
    if assigned X then l <- narrow_float (lo X) ;; u <- narrow_float (hi X) ;; mk l u else Ret ivl_default.
  Definition inarrow_failfast_float (X : ivl U) : outcome (ivl T) :=
    if assigned X then l <- narrow_failfast_float (lo X) ;; u <- narrow_failfast_float (hi X) ;; mk l u else Ret ivl_default.
  Definition inarrow_cast_float (X : ivl U) : outcome (ivl T) :=
    if assigned X then mk (narrow_cast_float (lo X)) (narrow_cast_float (hi X)) else Ret ivl_default.
End NarrowFloat.

(** The conversions of the usual arithmetic conversions among the modelled types: none; to a wider integer type; of an integer
    to a floating-point type whose range contains it; to a floating-point type with more digits and a larger range. *)
Inductive converts : forall L T : num, (L -> T) -> Prop :=
| cv_same N : converts N N (fun a => a)
| cv_int w w' Hw Hw' H : converts (int_num w Hw) (int_num w' Hw') (int_widen w w' Hw H)
| cv_int_float w Hw prec emax Hp He : w <= emax -> converts (int_num w Hw) (float_num prec emax Hp He) (int_to_float w prec emax Hp He)
| cv_float prec emax Hp He prec' emax' Hp' He' : prec <= prec' -> emax <= emax' ->
    converts (float_num prec emax Hp He) (float_num prec' emax' Hp' He') (float_conv prec emax prec' emax' Hp' He').
