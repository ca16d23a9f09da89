(** Overloads of the library for plain numbers, chosen when a generic program is instantiated with scalars. *)
From Coq Require Import List Bool.
From Verif Require Import Outcome SetModel Num IntervalModel.
Import ListNotations.

Section Scalar.
  Context {N : num}.
  (** [sgn(T)] (sign.hpp 61-66, detail/sign.hpp 16-36): the three-way comparison with [T{ }] is "unordered" if neither operand
      is less than nor equal to the other; then a debug build fails fast and a release build answers 0. *)
  Definition ssgn (dbg : bool) (x : N) : outcome sign :=
    expects_debug dbg (o_lt x n_zero || o_eq x n_zero || o_lt n_zero x) ;;;
    Ret (if o_lt n_zero x then positive_sign else if o_lt x n_zero then negative_sign else zero_sign).
  (** [T*sign], [sign*T] (sign.hpp 47-59): multiplication by [int(sign)]. *)
  Definition scalar_mul_sign (x : N) (s : sign) : outcome N := n_mul x (sign_value s).
  Definition sign_mul_scalar (s : sign) (x : N) : outcome N := n_mul (sign_value s) x.
  (** [assign], [assign_partial], [reset] (math.hpp 260-280): plain assignments. *)
  Definition scalar_assign (lhs rhs : N) : N := rhs.
  Definition scalar_assign_partial (lhs rhs : N) : N := rhs.
  Definition scalar_reset (lhs rhs : N) : N := rhs.
  (** [merge], [intersect] (math.hpp 313-329): the first argument, whatever the others are. *)
  Definition scalar_merge (x : N) (l : list N) : N := x.
  Definition scalar_intersect (x : N) (l : list N) : N := x.
End Scalar.
