(** The value types of the library ([interval_value], concepts.hpp 17-43). *)
From Coq Require Import ZArith Bool.
From Flocq Require Import Core BinarySingleNaN.
From Verif Require Import Outcome Num NumLaws IntNum IntProofs FloatNum FloatProofs RealNum IterModel IterProofs.
Open Scope Z_scope.

(** Arithmetic value types: signed integers of any width, IEEE-754 binary formats of any precision and exponent range. *)
Inductive value_type : num -> Prop :=
| vt_int w Hw : value_type (int_num w Hw)
| vt_float prec emax Hp He : value_type (float_num prec emax Hp He).
Lemma value_type_laws N : value_type N -> num_laws N.
Proof. intros [w Hw|prec emax Hp He]; [apply int_num_laws|apply float_laws]. Qed.

(** Ordered value types: the arithmetic ones and iterators into a range of any length. *)
Inductive order_type : ordty -> Prop :=
| ot_num N : value_type N -> order_type N
| ot_iter n : order_type (iter_ordty n).
Lemma order_type_laws O : order_type O -> ord_laws O.
Proof. intros [N H|n]; [apply (nl_ord N), value_type_laws, H|apply iter_ord_laws]. Qed.

Lemma vt_float64 : value_type float64. Proof. apply vt_float. Qed.
Lemma vt_float32 : value_type float32. Proof. apply vt_float. Qed.
Lemma vt_int32 : value_type int32. Proof. apply vt_int. Qed.
Lemma vt_int64 : value_type int64. Proof. apply vt_int. Qed.
