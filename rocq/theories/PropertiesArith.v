(** Properties of interval arithmetic (C13-C19, C48, C49, C51). *)
From Coq Require Import Bool List ZArith.
From Flocq Require Import Core BinarySingleNaN.
From Verif Require Import Outcome SetModel Spec Num NumLaws IntervalModel IvlSpec IvlProofs ArithProofs ArithProofs2 ArithProofs3 ArithProofs4 ArithProofs5
  IntNum IntExact FloatNum ValueTypes IvlWrap Refute.
Import ListNotations.

(** ** C13.  [defined2]: no pointwise result is undefined (integers: no overflow; always the case for floating point). *)
Theorem C13_add : forall N, value_type N -> forall dbg (x y : arg N), aproper x -> aproper y -> ~ nan_pair n_add x y ->
  (defined2 n_add x y -> exists Z, iadd dbg x y = Ret Z)
  /\ (forall Z, iadd dbg x y = Ret Z -> defined2 n_add x y /\ is_hull (img2 n_add x y) Z).
Proof. exact (fun N H dbg x y Hx Hy => op_ok_encl N _ _ x y (add_op_ok (value_type_laws N H) dbg x y Hx Hy)). Qed.
Print Assumptions C13_add.
Theorem C13_sub : forall N, value_type N -> forall dbg (x y : arg N), aproper x -> aproper y -> ~ nan_pair n_sub x y ->
  (defined2 n_sub x y -> exists Z, isub dbg x y = Ret Z)
  /\ (forall Z, isub dbg x y = Ret Z -> defined2 n_sub x y /\ is_hull (img2 n_sub x y) Z).
Proof. exact (fun N H dbg x y Hx Hy => op_ok_encl N _ _ x y (sub_op_ok (value_type_laws N H) dbg x y Hx Hy)). Qed.
Print Assumptions C13_sub.
Theorem C13_neg : forall N, value_type N -> forall dbg (X : ivl N), proper X ->
  (defined1 n_neg X -> exists Z, ineg dbg X = Ret Z)
  /\ (forall Z, ineg dbg X = Ret Z -> defined1 n_neg X /\ is_hull (img1 n_neg X) Z)
  /\ ((exists Z, ineg dbg X = Ret Z) \/ ineg dbg X = UB).
Proof. exact (fun N H => neg_hull (value_type_laws N H)). Qed.
Print Assumptions C13_neg.
Definition ex_x : arg float64 := Iv (Ivl (f64 1 0) (f64 2 0)).
Definition ex_y : arg float64 := Iv (Ivl (f64 (-3) 0) (f64 5 (-1))).
Example C13_example : aproper ex_x /\ aproper ex_y /\ ~ nan_pair n_add ex_x ex_y
  /\ (exists Z, iadd true ex_x ex_y = Ret Z /\ matches_ivl Z (Ivl (f64 (-2) 0) (f64 9 (-1))) = true)
  /\ (exists Z, isub true ex_x ex_y = Ret Z /\ matches_ivl Z (Ivl (f64 (-3) (-1)) (f64 5 0)) = true).
Proof.
  split; [reflexivity|]. split; [vm_compute; reflexivity|]. split.
  - rewrite <- (add_nan_iff (value_type_laws _ vt_float64) ex_x ex_y) by (vm_compute; reflexivity). vm_compute. discriminate.
  - split; apply ret_witness; vm_compute; reflexivity.
Qed.

(** ** C14 *)
Theorem C14_mul : forall N, value_type N -> forall dbg (x y : arg N), aproper x -> aproper y -> ~ nan_pair n_mul x y ->
  (defined2 n_mul x y -> exists Z, imul dbg x y = Ret Z)
  /\ (forall Z, imul dbg x y = Ret Z -> defined2 n_mul x y /\ is_hull (img2 n_mul x y) Z).
Proof. exact (fun N H dbg x y Hx Hy => op_ok_encl N _ _ x y (mul_op_ok (value_type_laws N H) dbg x y Hx Hy)). Qed.
Print Assumptions C14_mul.
(** A scalar factor gives the same elements as the degenerate interval, and the same NaN result. *)
Theorem C14_scalar_factor : forall N, value_type N -> forall dbg (x y : arg N) u Z Z', ok u -> aproper y ->
  imul dbg (Sc u) y = Ret Z -> imul dbg (Iv (ivl_of u)) y = Ret Z' -> agree Z Z'.
Proof. exact (fun N H => mul_scalar_agree N H). Qed.
Print Assumptions C14_scalar_factor.
Example C14_example : (exists Z, imul true ex_x ex_y = Ret Z /\ matches_ivl Z (Ivl (f64 (-6) 0) (f64 5 0)) = true)
  /\ ~ nan_pair n_mul ex_x ex_y.
Proof.
  split; [apply ret_witness; vm_compute; reflexivity|].
  rewrite <- (mul_nan_iff (value_type_laws _ vt_float64) ex_x ex_y) by (vm_compute; reflexivity). vm_compute. discriminate.
Qed.

(** ** C15 *)
Theorem C15_nan_exact : forall prec emax Hp He (N := float_num prec emax Hp He) dbg (x y : arg N), aproper x -> aproper y ->
  (exists Z, iadd dbg x y = Ret Z /\ (nan_ivl Z <-> nan_pair n_add x y) /\ (~ nan_pair n_add x y -> proper Z))
  /\ (exists Z, isub dbg x y = Ret Z /\ (nan_ivl Z <-> nan_pair n_sub x y) /\ (~ nan_pair n_sub x y -> proper Z))
  /\ (exists Z, imul dbg x y = Ret Z /\ (nan_ivl Z <-> nan_pair n_mul x y) /\ (~ nan_pair n_mul x y -> proper Z))
  /\ (exists Z, idiv dbg x y = Ret Z /\ (nan_ivl Z <-> nan_pair n_div x y) /\ (~ nan_pair n_div x y -> proper Z)).
Proof. exact nan_report_float. Qed.
Print Assumptions C15_nan_exact.
Example C15_example : aproper (Iv (Ivl (@n_zero float64) n_top)) /\ nan_pair n_mul (Iv (Ivl (@n_zero float64) n_top)) (Iv (Ivl (@n_zero float64) n_top))
  /\ imul true (Iv (Ivl (@n_zero float64) n_top)) (Iv (Ivl (@n_zero float64) n_top)) = Ret (ivl_of n_nan).
Proof. split; [reflexivity|]. split; [|reflexivity]. exists n_zero, n_top, n_nan. repeat split. Qed.

(** ** C16 *)
(** Missing compared with C16: a zero end point of the divisor must have the sign of the interior (see IvlSpec.zeros_fit). *)
Theorem C16_div_encloses_partial : forall prec emax Hp He (N := float_num prec emax Hp He) dbg (x y : arg N), aproper x -> aproper y ->
  ~ nan_pair n_div x y -> zeros_fit y ->
  exists Z, idiv dbg x y = Ret Z /\ forall u v q, ael x u -> ael y v -> ~ is_zero v -> n_div u v = Ret q -> el Z q.
Proof. exact div_encloses_float. Qed.
Print Assumptions C16_div_encloses_partial.
(** interval{ 1. } / interval{ -1., 0. } does not contain 1. / -0.5. *)
Theorem C16_div_encloses_refuted : exists (X Y Z : ivl float64) (x y q : float64),
  proper X /\ proper Y /\ ~ nan_pair n_div (Iv X) (Iv Y) /\ el X x /\ el Y y /\ ~ is_zero y /\ idiv true (Iv X) (Iv Y) = Ret Z /\ n_div x y = Ret q /\ ~ el Z q.
Proof. exact div_zero_end. Qed.
Print Assumptions C16_div_encloses_refuted.
(** Divisors without zero: exactly the hull, for all value types. *)
Theorem C16_div_zero_free : forall N, value_type N -> forall dbg (x y : arg N), aproper x -> aproper y -> ~ (exists v, ael y v /\ is_zero v) -> ~ nan_pair n_div x y ->
  (defined2 n_div x y -> exists Z, idiv dbg x y = Ret Z)
  /\ (forall Z, idiv dbg x y = Ret Z -> defined2 n_div x y /\ is_hull (img2 n_div x y) Z).
Proof. exact div_zero_free'. Qed.
Print Assumptions C16_div_zero_free.
Example C16_example : zeros_fit (Iv (Ivl (@n_zero float64) (f64 4 0)))
  /\ (exists Z, idiv true ex_x (Iv (Ivl (@n_zero float64) (f64 4 0))) = Ret Z /\ matches_ivl Z (Ivl (f64 1 (-2)) n_top) = true)
  /\ (exists Z, idiv true ex_x (Sc (f64 4 0)) = Ret Z /\ matches_ivl Z (Ivl (f64 1 (-2)) (f64 1 (-1))) = true).
Proof. split; [exact zeros_fit_example|]. split; apply ret_witness; vm_compute; reflexivity. Qed.

(** ** C17.  [int_exact2 f F a b]: [F] returns the exact range of [f] over the operands if every result is representable, and
    is undefined behaviour otherwise. *)
Theorem C17_add : forall w Hw dbg (a b : arg (int_num w Hw)), aproper a -> aproper b -> int_exact2 Z.add (iadd dbg a b) a b.
Proof. exact int_add. Qed.
Print Assumptions C17_add.
Theorem C17_sub : forall w Hw dbg (a b : arg (int_num w Hw)), aproper a -> aproper b -> int_exact2 Z.sub (isub dbg a b) a b.
Proof. exact int_sub. Qed.
Print Assumptions C17_sub.
Theorem C17_mul : forall w Hw dbg (a b : arg (int_num w Hw)), aproper a -> aproper b -> int_exact2 Z.mul (imul dbg a b) a b.
Proof. exact int_mul. Qed.
Print Assumptions C17_mul.
Theorem C17_div : forall w Hw dbg (a : arg (int_num w Hw)) (Y : ivl (int_num w Hw)), aproper a -> proper Y ->
  (zel (Iv Y) 0%Z -> idiv dbg a (Iv Y) = Trap) /\ (~ zel (Iv Y) 0%Z -> int_exact2 Z.quot (idiv dbg a (Iv Y)) a (Iv Y)).
Proof. exact int_div. Qed.
Print Assumptions C17_div.
Theorem C17_div_scalar : forall w Hw dbg (X : ivl (int_num w Hw)) (b : int_num w Hw), proper X ->
  (val b = 0%Z -> idiv dbg (Iv X) (Sc b) = UB) /\ (val b <> 0%Z -> int_exact2 Z.quot (idiv dbg (Iv X) (Sc b)) (Iv X) (Sc b)).
Proof. exact int_div_scalar. Qed.
Print Assumptions C17_div_scalar.
Theorem C17_unary : forall w Hw dbg (X : ivl (int_num w Hw)), proper X ->
  int_exact1 Z.opp (ineg dbg X) X /\ int_exact1 (fun z => (z * z)%Z) (isquare dbg X) X
  /\ int_exact1 (fun z => (z * z * z)%Z) (icube dbg X) X /\ int_exact1 Z.abs (iabs dbg X) X.
Proof. exact (fun w Hw dbg X H => conj (int_neg w Hw dbg X H) (conj (int_square w Hw dbg X H) (conj (int_cube w Hw dbg X H) (int_abs w Hw dbg X H)))). Qed.
Print Assumptions C17_unary.
Example C17_example : aproper (Iv (Ivl (i32 (-7)) (i32 2)))
  /\ (exists Z, idiv true (Iv (Ivl (i32 (-7)) (i32 2))) (Iv (Ivl (i32 2) (i32 3))) = Ret Z /\ matches_ivl Z (Ivl (i32 (-3)) (i32 1)) = true)
  /\ idiv true (Iv (Ivl (i32 (-7)) (i32 2))) (Iv (Ivl (i32 0) (i32 3))) = Trap
  /\ iadd true (Iv (Ivl (i32 1) (i32 2147483647))) (Sc (i32 1)) = UB.
Proof. split; [reflexivity|]. split; [apply ret_witness; vm_compute; reflexivity|]. split; reflexivity. Qed.

(** ** C18 *)
Theorem C18_square_cube_abs : forall N, value_type N -> forall dbg (X : ivl N), proper X ->
  ((defined1 nsquare X -> exists Z, isquare dbg X = Ret Z) /\ (forall Z, isquare dbg X = Ret Z -> defined1 nsquare X /\ is_hull (img1 nsquare X) Z))
  /\ ((defined1 ncube X -> exists Z, icube dbg X = Ret Z) /\ (forall Z, icube dbg X = Ret Z -> defined1 ncube X /\ is_hull (img1 ncube X) Z))
  /\ ((defined1 n_abs X -> exists Z, iabs dbg X = Ret Z) /\ (forall Z, iabs dbg X = Ret Z -> defined1 n_abs X /\ is_hull (img1 n_abs X) Z)).
Proof. exact (fun N H dbg X HX => conj (square_ok (value_type_laws N H) dbg X HX) (conj (icube_ok (value_type_laws N H) dbg X HX) (iabs_ok (value_type_laws N H) dbg X HX))). Qed.
Print Assumptions C18_square_cube_abs.
Theorem C18_square_in_product : forall N, value_type N -> forall dbg (X Z W : ivl N), proper X -> isquare dbg X = Ret Z -> imul dbg (Iv X) (Iv X) = Ret W ->
  o_le n_zero (lo Z) = true /\ proper Z /\ (nan_ivl W \/ subset Z W).
Proof. exact (fun N H => square_in_mul (value_type_laws N H)). Qed.
Print Assumptions C18_square_in_product.
Example C18_example : (exists Z, isquare true (Ivl (f64 (-2) 0) (f64 3 0)) = Ret Z /\ matches_ivl Z (Ivl (f64 0 0) (f64 9 0)) = true)
  /\ (exists Z, iabs true (Ivl (f64 (-2) 0) (f64 (-1) 0)) = Ret Z /\ matches_ivl Z (Ivl (f64 1 0) (f64 2 0)) = true)
  /\ (exists Z, icube true (Ivl (i32 (-2)) (i32 3)) = Ret Z /\ matches_ivl Z (Ivl (i32 (-8)) (i32 27)) = true).
Proof. repeat split; apply ret_witness; vm_compute; reflexivity. Qed.

(** ** C19 *)
Theorem C19_min_max : forall O, order_type O -> forall dbg (a b : arg O), aproper a -> aproper b ->
  (exists Z, imin dbg a b = Ret Z /\ is_hull (img2 (fun x y => Ret (omin x y)) a b) Z)
  /\ (exists Z, imax dbg a b = Ret Z /\ is_hull (img2 (fun x y => Ret (omax x y)) a b) Z).
Proof. exact (fun O H dbg a b Ha Hb => conj (imin_hull (order_type_laws O H) dbg a b Ha Hb) (imax_hull (order_type_laws O H) dbg a b Ha Hb)). Qed.
Print Assumptions C19_min_max.
Theorem C19_scalar_min_max : forall O, order_type O -> forall x y : O, ok x -> ok y ->
  o_le (omin x y) x = true /\ o_le (omin x y) y = true /\ (omin x y = x \/ omin x y = y)
  /\ o_le x (omax x y) = true /\ o_le y (omax x y) = true /\ (omax x y = x \/ omax x y = y).
Proof. exact scalar_min_max. Qed.
Print Assumptions C19_scalar_min_max.
Theorem C19_infimum_supremum : forall O, order_type O -> forall dbg (a : arg O), aproper a ->
  (exists m, infimum dbg a = Ret m /\ ael a m /\ forall v, ael a v -> o_le m v = true)
  /\ (exists m, supremum dbg a = Ret m /\ ael a m /\ forall v, ael a v -> o_le v m = true).
Proof. exact (fun O H => infsup (order_type_laws O H)). Qed.
Print Assumptions C19_infimum_supremum.
(** [lower()] and [upper()] are the least and the greatest element, they decide membership, and the constructor makes the same interval of them. *)
Theorem C19_bounds : forall O, order_type O -> forall dbg (X : ivl O), proper X ->
  exists l u, lower dbg X = Ret l /\ upper dbg X = Ret u /\ el X l /\ el X u
    /\ (forall v, el X v <-> o_le l v = true /\ o_le v u = true) /\ mk l u = Ret X.
Proof. exact (fun O H => lower_upper (order_type_laws O H)). Qed.
Print Assumptions C19_bounds.
Example C19_example : (exists Z, imin true ex_x ex_y = Ret Z /\ matches_ivl Z (Ivl (f64 (-3) 0) (f64 2 0)) = true) /\ infimum true ex_x = Ret (f64 1 0)
  /\ proper (Ivl (i32 1) (i32 4)) /\ lower true (Ivl (i32 1) (i32 4)) = Ret (i32 1) /\ upper true (Ivl (i32 1) (i32 4)) = Ret (i32 4).
Proof. split; [apply ret_witness; vm_compute; reflexivity|repeat split]. Qed.

(** ** C48 *)
Theorem C48_relations : forall O, order_type O -> forall dbg (x y : arg O) u v, just x u -> just y v -> ok u -> ok v ->
  rel_eq dbg x y = Ret (bset_of (o_eq u v)) /\ rel_neq dbg x y = Ret (bset_of (negb (o_eq u v)))
  /\ rel_lt dbg x y = Ret (bset_of (o_lt u v)) /\ rel_leq dbg x y = Ret (bset_of (o_le u v))
  /\ rel_gt dbg x y = Ret (bset_of (o_lt v u)) /\ rel_geq dbg x y = Ret (bset_of (o_le v u))
  /\ imin dbg x y = Ret (ivl_of (omin u v)) /\ imax dbg x y = Ret (ivl_of (omax u v)).
Proof. exact degenerate_order. Qed.
Print Assumptions C48_relations.
Theorem C48_arithmetic : forall N, value_type N -> forall dbg (x y : arg N) u v, just x u -> just y v -> ok u -> ok v ->
  (like_scalar n_add (iadd dbg x y) u v /\ (n_add u v = UB -> iadd dbg x y = UB))
  /\ (like_scalar n_sub (isub dbg x y) u v /\ (n_sub u v = UB -> isub dbg x y = UB))
  /\ (like_scalar n_mul (imul dbg x y) u v /\ (n_mul u v = UB -> imul dbg x y = UB))
  /\ (like_scalar n_div (idiv dbg x y) u v /\ (n_div u v = UB -> idiv dbg x y = UB \/ (is_zero v /\ idiv dbg x y = Trap))).
Proof. exact degenerate_arith. Qed.
Print Assumptions C48_arithmetic.
Theorem C48_unary : forall N, value_type N -> forall dbg u, ok u ->
  (forall z, n_neg u = Ret z -> ineg dbg (ivl_of u) = Ret (ivl_of z))
  /\ (forall z, nsquare u = Ret z -> exists Z, isquare dbg (ivl_of u) = Ret Z /\ matches Z z = true)
  /\ (forall z, ncube u = Ret z -> icube dbg (ivl_of u) = Ret (ivl_of z))
  /\ (forall z, @nabs N u = Ret z -> exists Z, iabs dbg (ivl_of u) = Ret Z /\ matches Z z = true)
  /\ (exists t, isgn dbg (ivl_of u) = Ret (sset_of t) /\ has_sign u t).
Proof. exact (fun N H => degenerate_unary (value_type_laws N H)). Qed.
Print Assumptions C48_unary.
Example C48_example : just (Iv (ivl_of (f64 1 0))) (f64 1 0) /\ just (Sc (f64 3 0)) (f64 3 0) /\ ok (f64 1 0) /\ ok (f64 3 0)
  /\ exists Z, idiv true (Iv (ivl_of (f64 1 0))) (Sc (f64 3 0)) = Ret Z /\ match n_div (f64 1 0) (f64 3 0) with Ret q => matches Z q | _ => false end = true.
Proof. split; [now right|]. split; [now left|]. split; [reflexivity|]. split; [reflexivity|].
  apply (ret_witness _ (fun Z => match n_div (f64 1 0) (f64 3 0) with Ret q => matches Z q | _ => false end)). vm_compute. reflexivity. Qed.

(** ** C49 *)
Theorem C49_isotonic : forall N, value_type N -> forall dbg (x y x' y' : arg N), aproper x -> aproper y -> asubset x x' -> asubset y y' ->
  Forall (fun F : bool -> arg N -> arg N -> outcome (ivl N) => forall Z', F dbg x' y' = Ret Z' -> ~ nan_ivl Z' -> exists Z, F dbg x y = Ret Z /\ proper Z /\ subset Z Z')
    [iadd; isub; imul; imin; imax].
Proof. exact (fun N H => isotonic_arith (value_type_laws N H)). Qed.
Print Assumptions C49_isotonic.
Theorem C49_isotonic_unary : forall N, value_type N -> forall dbg (X X' : ivl N), proper X -> subset X X' ->
  Forall (fun F : bool -> ivl N -> outcome (ivl N) => forall Z', F dbg X' = Ret Z' -> exists Z, F dbg X = Ret Z /\ proper Z /\ subset Z Z')
    [ineg; isquare; icube; iabs].
Proof. exact (fun N H => isotonic_unary (value_type_laws N H)). Qed.
Print Assumptions C49_isotonic_unary.
(** Missing compared with C49: the larger divisor must be free of zeros or have elements of both signs. *)
Theorem C49_isotonic_div_partial : forall N, value_type N -> forall dbg (x y x' y' : arg N), aproper x -> aproper y -> asubset x x' -> asubset y y' ->
  ~ (exists v, ael y' v /\ is_zero v) \/ (exists v w, ael y' v /\ ael y' w /\ o_lt v n_zero = true /\ o_lt n_zero w = true) ->
  forall Z', idiv dbg x' y' = Ret Z' -> ~ nan_ivl Z' -> exists Z, idiv dbg x y = Ret Z /\ proper Z /\ subset Z Z'.
Proof. exact isotonic_div'. Qed.
Print Assumptions C49_isotonic_div_partial.
(** interval{ 1. } / interval{ -1., -0.5 } is not a subset of interval{ 1. } / interval{ -1., 0. }. *)
Theorem C49_isotonic_div_refuted : exists (X Y Y' Z Z' : ivl float64),
  proper X /\ proper Y /\ subset Y Y' /\ idiv true (Iv X) (Iv Y) = Ret Z /\ idiv true (Iv X) (Iv Y') = Ret Z' /\ ~ nan_ivl Z' /\ ~ nan_ivl Z /\ ~ subset Z Z'.
Proof. exact div_not_isotonic. Qed.
Print Assumptions C49_isotonic_div_refuted.
Theorem C49_relations_grow : forall O, order_type O -> forall dbg (x y x' y' : arg O), aproper x -> aproper y -> asubset x x' -> asubset y y' ->
  Forall (fun rel : bool -> arg O -> arg O -> outcome bset => exists s s', rel dbg x y = Ret s /\ rel dbg x' y' = Ret s' /\ forall t, member s t -> member s' t)
    [rel_eq; rel_neq; rel_lt; rel_leq; rel_gt; rel_geq].
Proof. exact (fun O H => relational_mono (order_type_laws O H)). Qed.
Print Assumptions C49_relations_grow.
Example C49_example : asubset (Sc (i32 3)) (Iv (Ivl (i32 1) (i32 4))) /\ imul true (Sc (i32 3)) (Sc (i32 2)) = Ret (ivl_of (i32 6)).
Proof. split; [exact asubset_example|reflexivity]. Qed.

(** ** C51 *)
Theorem C51_add_commutes : forall N, value_type N -> forall dbg (x y : arg N), iadd dbg x y = iadd dbg y x.
Proof. exact (fun N H => add_comm_ivl (value_type_laws N H)). Qed.
Print Assumptions C51_add_commutes.
Theorem C51_mul_commutes : forall N, value_type N -> forall dbg (x y : arg N), aproper x -> aproper y -> forall Z, imul dbg x y = Ret Z -> exists Z', imul dbg y x = Ret Z' /\ agree Z Z'.
Proof. exact (fun N H => mul_comm_ivl (value_type_laws N H)). Qed.
Print Assumptions C51_mul_commutes.
Theorem C51_neg_neg : forall N, value_type N -> forall dbg (X Z : ivl N), proper X -> ineg dbg X = Ret Z -> exists W, ineg dbg Z = Ret W /\ proper W /\ same W X.
Proof. exact (fun N H => neg_neg_ivl (value_type_laws N H)). Qed.
Print Assumptions C51_neg_neg.
Theorem C51_sub_is_add_neg : forall N, value_type N -> forall dbg (x : arg N) (Y nY Z : ivl N), aproper x -> proper Y -> ineg dbg Y = Ret nY -> isub dbg x (Iv Y) = Ret Z ->
  exists W, iadd dbg x (Iv nY) = Ret W /\ agree Z W.
Proof. exact (fun N H => sub_add_neg (value_type_laws N H)). Qed.
Print Assumptions C51_sub_is_add_neg.
Theorem C51_min_max : forall O, order_type O -> forall dbg (x y : arg O) (X : ivl O), aproper x -> aproper y -> proper X ->
  (exists Z Z', imin dbg x y = Ret Z /\ imin dbg y x = Ret Z' /\ agree Z Z')
  /\ (exists Z Z', imax dbg x y = Ret Z /\ imax dbg y x = Ret Z' /\ agree Z Z')
  /\ imin dbg (Iv X) (Iv X) = Ret X /\ imax dbg (Iv X) (Iv X) = Ret X.
Proof. exact (fun O H => min_max_laws (order_type_laws O H)). Qed.
Print Assumptions C51_min_max.
Theorem C51_merge : forall O, order_type O -> forall X Y Z : ivl O, proper X -> proper Y -> proper Z ->
  (exists A B, merge X [Y] = Ret A /\ merge Y [X] = Ret B /\ agree A B)
  /\ (exists A B C D, merge X [Y] = Ret A /\ merge A [Z] = Ret B /\ merge Y [Z] = Ret C /\ merge X [C] = Ret D /\ agree B D
        /\ exists E, merge X [Y; Z] = Ret E /\ agree B E)
  /\ merge X [X] = Ret X.
Proof. exact (fun O H => merge_laws (order_type_laws O H)). Qed.
Print Assumptions C51_merge.
Example C51_example : aproper ex_x /\ aproper ex_y /\ (exists Z, imul true ex_y ex_x = Ret Z /\ proper Z).
Proof. split; [reflexivity|]. split; [vm_compute; reflexivity|]. destruct (ret_witness (imul true ex_y ex_x) (fun Z => o_le (lo Z) (hi Z))) as (Z & H1 & H2); [vm_compute; reflexivity|]. exists Z. auto. Qed.
