(** Specification of pow of intervals of any floating-point type, with infinite exponents and mixed signs (C77). *)
From Coq Require Import ZArith.
From Verif Require Import Outcome Num NumLaws IntervalModel IvlSpec MathModel MathSpec.

Section Spec.
  Context {N : num} (M : math N).
  Implicit Types (a b u v w z : N) (x y : arg N).

  (** The products with a NaN as a result, of numbers. *)
  Definition exceptional u v : Prop := (infinite u /\ is_zero v) \/ (is_zero u /\ infinite v).
  (** The product [z] of [u] and [v], where infinity times zero is zero. *)
  Definition times0 u v z : Prop := (exceptional u v /\ z = n_zero) \/ (~ exceptional u v /\ n_mul u v = Ret z).
  (** [v] is the power of [a] to [b] as computed from the logarithm of [a]. *)
  Definition pow_at a b v : Prop := exists e, times0 b (m_log M a) e /\ v = m_exp M e.
  (** The same, with the sign of a power of a negative number to [n]. *)
  Definition pow_neg_at (n : Z) a b v : Prop := exists c w, n_neg a = Ret c /\ pow_at c b w /\ if Z.even n then v = w else n_neg w = Ret v.
  (** The powers of the elements of [x].  Zero is an element of both halves of the real line: for a negative odd exponent it has the limits +inf and -inf. *)
  Definition nonneg_powers x y v : Prop := exists a b, ael x a /\ nonneg a /\ ael y b /\ pow_at a b v.
  Definition nonpos_powers (n : Z) x y v : Prop := exists a b, ael x a /\ o_le a n_zero = true /\ ael y b /\ pow_neg_at n a b v.
  (** [y] is the integer [n] only. *)
  Definition is_integer (n : Z) y : Prop := o_eq (alower y) (aupper y) = true /\ m_trunc M (alower y) = Ret n /\ o_eq (m_of_Z M n) (alower y) = true.
End Spec.
