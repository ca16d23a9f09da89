(** Properties of the interpolation examples of the documentation (C46). *)
From Coq Require Import Reals ZArith Bool List Lra Lia.
From Flocq Require Import Core BinarySingleNaN.
From Verif Require Import Outcome SetModel Num NumLaws IntervalModel IvlSpec IntNum XReal RealNum FloatNum ValueTypes
  AlgoModel AlgoSpec AlgoProofs4 MathSpec LangModel InterpModel InterpSpec InterpProofs InterpReal SegProofs InterpProofs5 IvlWrap.
Import ListNotations.
Open Scope nat_scope.

(** ** C46: nearest neighbour.  [mid] stands for std::midpoint. *)
(** For a number: the value at the first position whose midpoint with its successor is not less than the number. *)
Theorem C46_nearest_scalar : forall N, value_type N -> forall dbg mid (xs ys : list N), sorted xs -> between mid xs -> 2 <= length xs -> length xs = length ys ->
  (Z.of_nat (length xs) <= int_max 64)%Z -> forall x, exists k y, lower_bound_at (halves mid xs) x k /\ nth_error ys k = Some y /\ nearest_scalar dbg mid xs ys x = Ret y.
Proof. exact (fun N H dbg mid xs ys => nearest_scalar_ok (value_type_laws N H) dbg mid xs ys). Qed.
Print Assumptions C46_nearest_scalar.
(** In exact arithmetic this is the value at a point nearest to the number. *)
Theorem C46_nearest_point : forall dbg (xs ys : list R) x, sorted (points xs) -> 2 <= length xs -> length xs = length ys -> (Z.of_nat (length xs) <= int_max 64)%Z ->
  exists k p y, nth_error xs k = Some p /\ nth_error ys k = Some y /\ nearest_scalar dbg real_mid (points xs) (points ys) (XFin x : real_num) = Ret (XFin y : real_num)
    /\ forall j q, nth_error xs j = Some q -> (Rabs (x - p) <= Rabs (x - q))%R.
Proof. exact nearest_is_nearest. Qed.
Print Assumptions C46_nearest_point.
(** For an interval: never fails, and encloses the result for every element. *)
Theorem C46_nearest : forall N, value_type N -> forall dbg mid (xs ys : list N), sorted xs -> between mid xs -> 2 <= length xs -> length xs = length ys ->
  (Z.of_nat (length xs) <= int_max 64)%Z -> (forall y, In y ys -> ok y) -> forall X, proper X ->
  exists Z, nearest dbg mid xs ys X = Ret Z /\ forall x, el X x -> exists y, nearest_scalar dbg mid xs ys x = Ret y /\ el Z y.
Proof. exact (fun N H dbg mid xs ys => nearest_included (value_type_laws N H) dbg mid xs ys). Qed.
Print Assumptions C46_nearest.
(** With distinct midpoints the result is the hull of the results for the elements. *)
Theorem C46_nearest_hull : forall N, value_type N -> forall dbg mid (xs ys : list N), sorted xs -> between mid xs -> 2 <= length xs -> length xs = length ys ->
  (Z.of_nat (length xs) <= int_max 64)%Z -> (forall y, In y ys -> ok y) -> forall X, proper X -> ascending (halves mid xs) ->
  exists Z, nearest dbg mid xs ys X = Ret Z /\ is_hull (fun y => exists x, el X x /\ nearest_scalar dbg mid xs ys x = Ret y) Z.
Proof. exact (fun N H dbg mid xs ys => nearest_hull (value_type_laws N H) dbg mid xs ys). Qed.
Print Assumptions C46_nearest_hull.

(** The table of interpolate-nn.cpp and interpolate-linear.cpp. *)
Definition xs4 : list float64 := map (fun z => f64 z 0) [1; 2; 4; 8]%Z.
Definition ys4 : list float64 := map (fun z => f64 z 0) [1; 3; 9; -3]%Z.
(** std::midpoint for numbers of moderate size *)
Definition mid64 (a b : float64) : float64 := match n_add a b with Ret s => match n_div s (f64 2 0) with Ret q => q | _ => n_nan end | _ => n_nan end.
Lemma pairs4 (P : nat -> nat -> float64 -> float64 -> Prop) (l : list float64) : (forall i j, i < length l -> j < length l -> P i j (nth i l n_zero) (nth j l n_zero)) ->
  forall i j v w, nth_error l i = Some v -> nth_error l j = Some w -> P i j v w.
Proof.
  intros H i j v w Ei Ej. rewrite <- (nth_error_nth l i n_zero Ei), <- (nth_error_nth l j n_zero Ej). apply H; apply nth_error_Some; congruence.
Qed.
Ltac small_pairs := intros i j Hi Hj; do 5 (destruct i as [|i]; [do 5 (destruct j as [|j]; [intros L; first [exfalso; cbn in Hi, Hj; lia|vm_compute; reflexivity]|]); cbn in Hj; lia|]); cbn in Hi; lia.
Example C46_nearest_example : sorted xs4 /\ between mid64 xs4 /\ length xs4 = length ys4 /\ (forall y, In y ys4 -> ok y) /\ ascending (halves mid64 xs4)
  /\ (exists Z, nearest true mid64 xs4 ys4 (Ivl (f64 1 0) (f64 7 (-1))) = Ret Z /\ o_eq (lo Z) (f64 1 0) && o_eq (hi Z) (f64 9 0) = true).
Proof.
  split; [|split; [|split; [reflexivity|split; [|split]]]].
  - intros i j v w L Ei Ej. revert L. refine (pairs4 (fun i j v w => i <= j -> o_le v w = true) xs4 _ i j v w Ei Ej). clear. small_pairs.
  - intros i a b Ei Ej.
    refine (pairs4 (fun i j v w => j = S i -> o_le v (mid64 v w) = true /\ o_le (mid64 v w) w = true) xs4 _ i (S i) a b Ei Ej eq_refl). clear.
    intros i j Hi Hj ->. do 4 (destruct i as [|i]; [try (split; vm_compute; reflexivity); cbn in Hj; lia|]). cbn in Hi. lia.
  - intros y Hy. repeat (destruct Hy as [<-|Hy]; [vm_compute; reflexivity|]). destruct Hy.
  - intros i j v w L Ei Ej. revert L. refine (pairs4 (fun i j v w => i < j -> o_lt v w = true) (halves mid64 xs4) _ i j v w Ei Ej). clear. small_pairs.
  - apply ret_witness. vm_compute. reflexivity.
Qed.
Example C46_nearest_point_example : sorted (points [1; 2; 4; 8]%R).
Proof.
  apply points_sorted. intros i j a b L Ei Ej. do 4 (destruct i as [|i]; [injection Ei as <-; do 4 (destruct j as [|j]; [try lia; injection Ej as <-; lra|]); destruct j; discriminate|]). destruct i; discriminate.
Qed.

(** ** C46: linear interpolation *)
(** For an interval: never fails, and encloses the result for every element.  Floating-point tables may contain coinciding points. *)
Theorem C46_linear : forall N, value_type N -> forall dbg (xs ys : list N), sorted xs -> 2 <= length xs -> (Z.of_nat (length xs) <= int_max 64)%Z -> length ys = length xs ->
  finite_gaps xs -> finite_gaps ys -> n_float N = true \/ ascending xs -> forall X, proper X ->
  exists Z, linear dbg xs ys X = Ret Z /\ forall x, el X x -> exists y, linear_scalar dbg xs ys x = Ret y /\ el Z y.
Proof. exact (fun N H dbg xs ys => linear_included (value_type_laws N H) (value_seg_laws N H) dbg xs ys). Qed.
Print Assumptions C46_linear.
(** For a number: the value of the piecewise linear function. *)
Theorem C46_linear_scalar : forall N, value_type N -> forall dbg (xs ys : list N), sorted xs -> 2 <= length xs -> (Z.of_nat (length xs) <= int_max 64)%Z -> length ys = length xs ->
  finite_gaps xs -> finite_gaps ys -> n_float N = true \/ ascending xs -> forall x, ok x -> exists y, linear_scalar dbg xs ys x = Ret y /\ linear_value xs ys x y.
Proof. exact (fun N H dbg xs ys => linear_scalar_ok (value_type_laws N H) (value_seg_laws N H) dbg xs ys). Qed.
Print Assumptions C46_linear_scalar.
(** Both bounds of the result are values of the piecewise linear function at elements. *)
Theorem C46_linear_tight : forall N, value_type N -> forall dbg (xs ys : list N), sorted xs -> 2 <= length xs -> (Z.of_nat (length xs) <= int_max 64)%Z -> length ys = length xs ->
  finite_gaps xs -> finite_gaps ys -> n_float N = true \/ ascending xs -> forall X, proper X -> forall Z, linear dbg xs ys X = Ret Z ->
  (exists x y, el X x /\ linear_value xs ys x y /\ o_eq y (lo Z) = true) /\ (exists x y, el X x /\ linear_value xs ys x y /\ o_eq y (hi Z) = true).
Proof. exact (fun N H dbg xs ys => linear_tight (value_type_laws N H) (value_seg_laws N H) dbg xs ys). Qed.
Print Assumptions C46_linear_tight.
Lemma gaps4 (l : list float64) : length l = 4 ->
  (forall i, i < 3 -> exists d, n_sub (nth (S i) l n_zero) (nth i l n_zero) = Ret d /\ o_eq d d && negb (o_eq d n_top) && negb (o_eq d n_bot) = true) -> finite_gaps l.
Proof.
  intros L H i a b Ea Eb. rewrite <- (nth_error_nth l i n_zero Ea), <- (nth_error_nth l (S i) n_zero Eb).
  assert (S i < length l) by (apply nth_error_Some; congruence). destruct (H i) as (d & Ed & T); [lia|]. exists d. split; [exact Ed|].
  apply andb_true_iff in T as [T T3]. apply andb_true_iff in T as [T1 T2]. apply negb_true_iff in T2, T3. split.
  - unfold nan. rewrite T1. discriminate.
  - intros [_ [K|K]]; [rewrite K in T2; discriminate T2|rewrite K in T3; discriminate T3].
Qed.
Example C46_linear_example : sorted xs4 /\ finite_gaps xs4 /\ finite_gaps ys4
  /\ (exists Z, linear true xs4 ys4 (Ivl (f64 1 0) (f64 3 0)) = Ret Z /\ o_eq (lo Z) (f64 1 0) && o_eq (hi Z) (f64 6 0) = true)
  /\ (exists Z, linear true xs4 ys4 (Ivl (f64 3 0) (f64 9 0)) = Ret Z /\ o_eq (lo Z) (f64 (-3) 0) && o_eq (hi Z) (f64 9 0) = true).
Proof.
  split; [exact (proj1 C46_nearest_example)|]. split; [|split; [|split]].
  - apply gaps4; [reflexivity|]. intros i Hi. do 3 (destruct i as [|i]; [apply ret_witness; vm_compute; reflexivity|]). lia.
  - apply gaps4; [reflexivity|]. intros i Hi. do 3 (destruct i as [|i]; [apply ret_witness; vm_compute; reflexivity|]). lia.
  - apply ret_witness. vm_compute. reflexivity.
  - apply ret_witness. vm_compute. reflexivity.
Qed.
