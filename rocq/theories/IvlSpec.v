(** Vocabulary for properties of intervals: elements, subsets, hulls, pointwise images.  Refers to the machine
    comparison [<=] of the value type only. *)
From Coq Require Import Bool List.
From Verif Require Import Outcome SetModel Spec Num NumLaws IntervalModel.
Import ListNotations.

Section Spec.
  Context {O : ordty}.
  Implicit Types (X Y Z : ivl O) (v : O) (a b : arg O).

  (** [v] is an element of [X] (a NaN is an element of nothing, a NaN interval has no elements). *)
  Definition el X v : Prop := o_le (lo X) v = true /\ o_le v (hi X) = true.
  (** Elements of an operand; the elements of a scalar are the values that compare equal to it. *)
  Definition ael a v : Prop := o_le (alower a) v = true /\ o_le v (aupper a) = true.
  (** Assigned and free of NaN; equivalently: has an element. *)
  Definition proper X : Prop := o_le (lo X) (hi X) = true.
  Definition aproper a : Prop := o_le (alower a) (aupper a) = true.
  Definition subset X Y : Prop := forall v, el X v -> el Y v.
  Definition same X Y : Prop := forall v, el X v <-> el Y v.
  (** [Z] is the hull of the values satisfying [P]: it contains them all and both end points are attained. *)
  Definition is_hull (P : O -> Prop) Z : Prop :=
    (forall v, P v -> el Z v) /\ (exists v, P v /\ o_eq v (lo Z) = true) /\ (exists v, P v /\ o_eq v (hi Z) = true).
  (** The set of truth values [s] is exactly the extension of the comparison [f] to the operands. *)
  Definition rel_exact (f : O -> O -> bool) (s : bset) a b : Prop :=
    wf_set s /\ forall t : bool, member s t <-> exists x y, ael a x /\ ael b y /\ f x y = t.
  Definition same_value (v w : O) : Prop := o_eq v w = true.
End Spec.

(** Pointwise images of partial functions. *)
Definition img1 {O O' : ordty} (f : O -> outcome O') (X : ivl O) (z : O') : Prop := exists x, el X x /\ f x = Ret z.
Definition img2 {O1 O2 O' : ordty} (f : O1 -> O2 -> outcome O') (a : arg O1) (b : arg O2) (z : O') : Prop :=
  exists x y, ael a x /\ ael b y /\ f x y = Ret z.
Definition defined1 {O O' : ordty} (f : O -> outcome O') (X : ivl O) : Prop := forall x, el X x -> exists z, f x = Ret z.
Definition defined2 {O1 O2 O' : ordty} (f : O1 -> O2 -> outcome O') (a : arg O1) (b : arg O2) : Prop :=
  forall x y, ael a x -> ael b y -> exists z, f x y = Ret z.

(** NaN, as observed by comparing a value with itself. *)
Definition nan {O : ordty} (v : O) : Prop := o_eq v v = false.
Definition nan_ivl {O : ordty} (X : ivl O) : Prop := nan (lo X) /\ nan (hi X).
(** Some pointwise result is NaN. *)
Definition nan_pair {O : ordty} (f : O -> O -> outcome O) (a b : arg O) : Prop :=
  exists u v s, ael a u /\ ael b v /\ f u v = Ret s /\ nan s.

(** A zero end point of a divisor has the sign of the interior (a lower end +0 of a non-negative divisor, an upper end -0
    of a non-positive divisor), unless the divisor consists of zeros only. *)
Definition zeros_fit {N : num} (y : arg N) : Prop :=
  (neg_zero (alower y) -> is_zero (aupper y)) /\ (pos_zero (aupper y) -> is_zero (alower y)).

(** Signs of values and multiplication by a sign; 0 times anything is 0. *)
Definition has_sign {N : num} (x : N) (t : sign) : Prop :=
  match t with
  | negative_sign => o_lt x n_zero = true
  | zero_sign => o_eq x n_zero = true
  | positive_sign => o_lt n_zero x = true
  end.
Definition sign_times {N : num} (t : sign) (x : N) : outcome N :=
  match t with negative_sign => n_neg x | zero_sign => Ret n_zero | positive_sign => Ret x end.

(** ** Histories of a mutable interval *)
Definition iop_gives {N : num} (o : @iop N) (v : N) : Prop :=
  match o with
  | OReset => False
  | OResetValue w | OAssignValue w => o_eq w v = true
  | OResetIvl Y | OAssignIvl Y => el Y v
  end.
Definition iop_resets {N : num} (o : @iop N) : Prop :=
  match o with OReset | OResetValue _ | OResetIvl _ => True | _ => False end.
(** [v] was given by an operation after which no reset took place. *)
Definition igiven_since_reset {N : num} (ops : list (@iop N)) (v : N) : Prop :=
  exists pre o post, ops = pre ++ o :: post /\ iop_gives o v /\ Forall (fun p => ~ iop_resets p) post.
(** Arguments are numbers and assigned intervals of numbers. *)
Definition iop_legal {N : num} (o : @iop N) : Prop :=
  match o with
  | OReset => True
  | OResetValue w | OAssignValue w => ~ nan w
  | OResetIvl Y | OAssignIvl Y => proper Y
  end.

(** An operand denotes the number [v] alone: the scalar, or the degenerate interval. *)
Definition just {O : ordty} (a : arg O) (v : O) : Prop := a = Sc v \/ a = Iv (ivl_of v).
Definition asubset {O : ordty} (a b : arg O) : Prop := forall v, ael a v -> ael b v.
(** Both are NaN intervals, or they have the same elements. *)
Definition agree {O : ordty} (X Y : ivl O) : Prop := (nan_ivl X /\ nan_ivl Y) \/ (proper X /\ proper Y /\ same X Y).

(** An operation on two operands: undefined behaviour exactly if some pointwise result is undefined, otherwise the hull. *)
Definition exact_hull {O1 O2 O' : ordty} (f : O1 -> O2 -> outcome O') (F : outcome (ivl O')) (a : arg O1) (b : arg O2) : Prop :=
  (defined2 f a b -> exists Z, F = Ret Z /\ is_hull (img2 f a b) Z) /\ (~ defined2 f a b -> F = UB).
Definition exact_hull1 {O O' : ordty} (f : O -> outcome O') (F : outcome (ivl O')) (X : ivl O) : Prop :=
  (defined1 f X -> exists Z, F = Ret Z /\ is_hull (img1 f X) Z) /\ (~ defined1 f X -> F = UB).

(** The interval result [F] is the degenerate interval of the scalar result, or NaN if that is NaN. *)
Definition like_scalar {N : num} (f : N -> N -> outcome N) (F : outcome (ivl N)) (u v : N) : Prop :=
  (forall s, f u v = Ret s -> ~ nan s -> F = Ret (ivl_of s))
  /\ (forall s, f u v = Ret s -> nan s -> exists Z, F = Ret Z /\ nan_ivl Z).
