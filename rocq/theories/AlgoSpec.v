(** Vocabulary for the algorithms: partition points, sorted ranges, enumerations. *)
From Coq Require Import Bool List Arith ZArith.
From Verif Require Import Outcome Num NumLaws IntervalModel IvlSpec IntNum.
Import ListNotations.
Open Scope nat_scope.

(** [k] is the position at which [r] changes from elements that satisfy [q] to elements that do not. *)
Definition splits {A : Type} (q : A -> Prop) (r : list A) (k : nat) : Prop :=
  k <= length r /\ forall i v, nth_error r i = Some v -> (i < k -> q v) /\ (k <= i -> ~ q v).
(** Ascending; no element is NaN. *)
Definition sorted {O : ordty} (r : list O) : Prop :=
  forall i j v w, i <= j -> nth_error r i = Some v -> nth_error r j = Some w -> o_le v w = true.
(** The standard definitions of the scalar searches: the first position whose element is not less than the value, or is
    greater than the value. *)
Definition lower_bound_at {O : ordty} (r : list O) (v : O) (k : nat) : Prop := splits (fun e => o_lt e v = true) r k.
Definition upper_bound_at {O : ordty} (r : list O) (v : O) (k : nat) : Prop := splits (fun e => o_lt v e = false) r k.
(** Strictly ascending. *)
Definition ascending {O : ordty} (l : list O) : Prop :=
  forall i j v w, i < j -> nth_error l i = Some v -> nth_error l j = Some w -> o_lt v w = true.
(** The predicate [q] chooses one truth value of each set. *)
Definition selects {A : Type} (s : A -> SetModel.bset) (q : A -> bool) (r : list A) : Prop := forall v, In v r -> Spec.member (s v) (q v).
(** An index or index interval within [0, size]. *)
Definition index_ok {A : Type} (r : list A) (i : arg (int_ordty 64)) : Prop :=
  aproper i /\ (0 <= val (alower i))%Z /\ (val (aupper i) <= Z.of_nat (length r))%Z.
(** The position [k] is one of those denoted by [i]. *)
Definition index_in (i : arg (int_ordty 64)) (k : nat) : Prop := (val (alower i) <= Z.of_nat k <= val (aupper i))%Z.
