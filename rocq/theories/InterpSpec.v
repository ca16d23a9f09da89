(** Vocabulary for the interpolation examples. *)
From Coq Require Import Bool List Arith ZArith.
From Verif Require Import Outcome Num NumLaws IntervalModel IvlSpec AlgoSpec MathSpec.
Import ListNotations.

(** The numbers halfway between adjacent points. *)
Fixpoint halves {A : Type} (mid : A -> A -> A) (xs : list A) : list A :=
  match xs with a :: (b :: _) as t => mid a b :: halves mid t | _ => [] end.
(** What is required of std::midpoint: for adjacent points the result lies between them. *)
Definition between {O : ordty} (mid : O -> O -> O) (xs : list O) : Prop :=
  forall i a b, nth_error xs i = Some a -> nth_error xs (S i) = Some b -> o_le a (mid a b) = true /\ o_le (mid a b) b = true.
(** The differences of adjacent elements are defined and finite. *)
Definition finite_gaps {N : num} (l : list N) : Prop :=
  forall i a b, nth_error l i = Some a -> nth_error l (S i) = Some b -> exists d, n_sub b a = Ret d /\ finite d.
(** The straight line through (x0, y0) and (x1, y1) at [x], evaluated as y0 + (x - x0)/(x1 - x0)*(y1 - y0). *)
Definition line {N : num} (x0 x1 y0 y1 x y : N) : Prop :=
  exists a dx t dy p, n_sub x x0 = Ret a /\ n_sub x1 x0 = Ret dx /\ n_div a dx = Ret t /\ n_sub y1 y0 = Ret dy /\ n_mul t dy = Ret p /\ n_add y0 p = Ret y.
(** The value of the interpolating function at [x]: the first or last value outside the table, otherwise the line through two adjacent points.
    At a point of the table, the line on either side is admitted. *)
Definition linear_value {N : num} (xs ys : list N) (x y : N) : Prop :=
  (exists p, nth_error xs 0 = Some p /\ o_le x p = true /\ nth_error ys 0 = Some y)
  \/ (exists p, nth_error xs (length xs - 1) = Some p /\ o_lt p x = true /\ nth_error ys (length xs - 1) = Some y)
  \/ (exists i x0 x1 y0 y1, nth_error xs i = Some x0 /\ nth_error xs (S i) = Some x1 /\ nth_error ys i = Some y0 /\ nth_error ys (S i) = Some y1
      /\ o_lt x0 x1 = true /\ o_le x0 x = true /\ o_le x x1 = true /\ line x0 x1 y0 y1 x y).
