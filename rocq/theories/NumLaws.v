(** The laws of comparisons and of machine arithmetic that the proofs rely on.  They are proved for every instance
    (IntNum.v, FloatNum.v, IterModel.v, RealNum.v); nothing is assumed. *)
From Coq Require Import Bool.
From Verif Require Import Outcome Num.

(** [ok x]: [x] is not NaN. *)
Definition ok {O : ordty} (x : O) : Prop := o_le x x = true.

Record ord_laws (O : ordty) : Prop := {
  ol_eq : forall a b : O, o_eq a b = o_le a b && o_le b a;
  ol_lt : forall a b : O, o_lt a b = o_le a b && negb (o_le b a);
  ol_ok : forall a b : O, o_le a b = true -> ok a /\ ok b;
  ol_total : forall a b : O, ok a -> ok b -> o_le a b = true \/ o_le b a = true;
  ol_trans : forall a b c : O, o_le a b = true -> o_le b c = true -> o_le a c = true;
  ol_succ : o_disc O = true -> forall a y : O, o_succ a = Ret y -> forall z : O, o_lt a z = true <-> o_le y z = true;
  ol_succ_def : o_disc O = true -> forall a z : O, o_lt a z = true -> exists y, o_succ a = Ret y;
  ol_pred : o_disc O = true -> forall a y : O, o_pred a = Ret y -> forall z : O, o_lt z a = true <-> o_le z y = true;
  ol_pred_def : o_disc O = true -> forall a z : O, o_lt z a = true -> exists y, o_pred a = Ret y;
  ol_cont : o_disc O = false -> forall a : O, o_succ a = Ret a /\ o_pred a = Ret a
}.

(** [a] is an infinity, [a] is zero. *)
Definition infinite {N : num} (a : N) : Prop := n_float N = true /\ (o_eq a n_top = true \/ o_eq a n_bot = true).
Definition is_zero {N : num} (a : N) : Prop := o_eq a n_zero = true.
(** A zero with positive sign: dividing 1 by it gives +infinity. *)
Definition pos_zero {N : num} (y : N) : Prop := is_zero y /\ n_div n_one y = Ret n_top.
Definition neg_zero {N : num} (y : N) : Prop := is_zero y /\ n_div n_one y = Ret n_bot.

Record num_laws (N : num) : Prop := {
  nl_ord : ord_laws N;
  nl_int_ok : n_float N = false -> forall a : N, ok a;
  nl_int_disc : n_float N = negb (o_disc N);
  nl_top : forall a : N, ok a -> o_le a n_top = true;
  nl_bot : forall a : N, ok a -> o_le n_bot a = true;
  nl_zero : o_lt (@n_bot N) n_zero = true /\ o_lt (@n_zero N) n_top = true;
  nl_one : o_lt n_zero (@n_one N) = true /\ o_lt (@n_mone N) n_zero = true /\ @n_neg N n_one = Ret n_mone;
  nl_nan : n_float N = true -> ~ ok (@n_nan N);
  (** floating-point operators are total *)
  nl_float_total : n_float N = true -> forall a b : N,
    (exists z, n_neg a = Ret z) /\ (exists z, n_abs a = Ret z) /\ (exists z, n_add a b = Ret z)
    /\ (exists z, n_sub a b = Ret z) /\ (exists z, n_mul a b = Ret z) /\ (exists z, n_div a b = Ret z);
  (** an operation that does not return normally is undefined behaviour *)
  nl_ret_or_ub : forall a b : N,
    (n_neg a = UB \/ exists z, n_neg a = Ret z) /\ (n_abs a = UB \/ exists z, n_abs a = Ret z)
    /\ (n_add a b = UB \/ exists z, n_add a b = Ret z) /\ (n_sub a b = UB \/ exists z, n_sub a b = Ret z)
    /\ (n_mul a b = UB \/ exists z, n_mul a b = Ret z) /\ (n_div a b = UB \/ exists z, n_div a b = Ret z);
  (** a NaN operand gives a NaN result *)
  nl_strict1 : forall a z : N, n_neg a = Ret z \/ n_abs a = Ret z -> ok z -> ok a;
  nl_strict2 : forall a b z : N, n_add a b = Ret z \/ n_sub a b = Ret z \/ n_mul a b = Ret z \/ n_div a b = Ret z -> ok z -> ok a /\ ok b;
  (** negation *)
  nl_neg_ok : forall a z : N, ok a -> n_neg a = Ret z -> ok z;
  nl_neg_anti : forall a b x y : N, o_le a b = true -> n_neg a = Ret x -> n_neg b = Ret y -> o_le y x = true;
  nl_neg_def : forall a b x : N, o_le a b = true -> n_neg a = Ret x -> exists y, n_neg b = Ret y;
  nl_neg_zero : forall a z : N, is_zero a -> n_neg a = Ret z -> is_zero z;
  nl_neg_invol : forall a z : N, ok a -> n_neg a = Ret z -> exists w, n_neg z = Ret w /\ o_eq w a = true;
  nl_abs_pos : forall a : N, o_le n_zero a = true -> exists z, n_abs a = Ret z /\ o_eq z a = true;
  nl_abs_neg : forall a z : N, o_le a n_zero = true -> n_neg a = Ret z -> exists w, n_abs a = Ret w /\ o_eq w z = true;
  nl_abs_def : forall a w : N, o_le a n_zero = true -> n_abs a = Ret w -> exists z, n_neg a = Ret z;
  (** addition *)
  nl_add_mono : forall a a' b b' s s' : N, o_le a a' = true -> o_le b b' = true ->
    n_add a b = Ret s -> n_add a' b' = Ret s' -> ok s -> ok s' -> o_le s s' = true;
  nl_add_def : forall a1 a a2 b1 b b2 s1 s2 : N, o_le a1 a = true -> o_le a a2 = true -> o_le b1 b = true -> o_le b b2 = true ->
    n_add a1 b1 = Ret s1 -> n_add a2 b2 = Ret s2 -> exists s, n_add a b = Ret s;
  nl_add_nan : forall a b s : N, ok a -> ok b -> n_add a b = Ret s ->
    (ok s <-> ~ ((is_ninf a = true /\ is_pinf b = true) \/ (is_pinf a = true /\ is_ninf b = true)));
  nl_add_comm : forall a b : N, n_add a b = n_add b a;
  (** subtraction *)
  nl_sub_mono : forall a a' b b' s s' : N, o_le a a' = true -> o_le b b' = true ->
    n_sub a b' = Ret s -> n_sub a' b = Ret s' -> ok s -> ok s' -> o_le s s' = true;
  nl_sub_def : forall a1 a a2 b1 b b2 s1 s2 : N, o_le a1 a = true -> o_le a a2 = true -> o_le b1 b = true -> o_le b b2 = true ->
    n_sub a1 b2 = Ret s1 -> n_sub a2 b1 = Ret s2 -> exists s, n_sub a b = Ret s;
  nl_sub_nan : forall a b s : N, ok a -> ok b -> n_sub a b = Ret s ->
    (ok s <-> ~ ((is_ninf a = true /\ is_ninf b = true) \/ (is_pinf a = true /\ is_pinf b = true)));
  nl_sub_neg : forall a b nb s : N, n_neg b = Ret nb -> n_sub a b = Ret s -> exists t, n_add a nb = Ret t /\ (ok s -> o_eq s t = true);
  (** multiplication *)
  nl_mul_comm : forall a b : N, n_mul a b = n_mul b a;
  nl_mul_mono : forall a a' c p p' : N, o_le a a' = true -> o_le n_zero c = true ->
    n_mul a c = Ret p -> n_mul a' c = Ret p' -> ok p -> ok p' -> o_le p p' = true;
  nl_mul_anti : forall a a' c p p' : N, o_le a a' = true -> o_le c n_zero = true ->
    n_mul a c = Ret p -> n_mul a' c = Ret p' -> ok p -> ok p' -> o_le p' p = true;
  nl_mul_def : forall a1 a a2 c p1 p2 : N, o_le a1 a = true -> o_le a a2 = true -> ok c ->
    n_mul a1 c = Ret p1 -> n_mul a2 c = Ret p2 -> exists p, n_mul a c = Ret p;
  nl_mul_nan : forall a b p : N, ok a -> ok b -> n_mul a b = Ret p ->
    (ok p <-> ~ ((infinite a /\ is_zero b) \/ (is_zero a /\ infinite b)));
  nl_mul_zero : forall a p : N, n_mul a n_zero = Ret p -> ok p -> is_zero p;
  nl_mul_zero_def : forall a : N, exists p, n_mul n_zero a = Ret p;
  nl_mul_one : forall a : N, exists p, n_mul n_one a = Ret p /\ (ok a -> o_eq p a = true);
  nl_mul_mone : forall a p : N, n_mul n_mone a = Ret p -> exists z, n_neg a = Ret z /\ (ok a -> o_eq p z = true);
  nl_mul_mone_def : forall a z : N, n_neg a = Ret z -> exists p, n_mul n_mone a = Ret p;
  (** division; a zero divisor of an integer is undefined behaviour *)
  nl_div_mono : forall a a' c q q' : N, o_le a a' = true -> o_lt n_zero c = true ->
    n_div a c = Ret q -> n_div a' c = Ret q' -> ok q -> ok q' -> o_le q q' = true;
  nl_div_anti : forall a a' c q q' : N, o_le a a' = true -> o_lt c n_zero = true ->
    n_div a c = Ret q -> n_div a' c = Ret q' -> ok q -> ok q' -> o_le q' q = true;
  nl_div_pos : forall a c c' q q' : N, o_le n_zero a = true -> o_le c c' = true -> (o_lt n_zero c = true \/ o_lt c' n_zero = true) ->
    n_div a c = Ret q -> n_div a c' = Ret q' -> ok q -> ok q' -> o_le q' q = true;
  nl_div_neg : forall a c c' q q' : N, o_le a n_zero = true -> o_le c c' = true -> (o_lt n_zero c = true \/ o_lt c' n_zero = true) ->
    n_div a c = Ret q -> n_div a c' = Ret q' -> ok q -> ok q' -> o_le q q' = true;
  nl_div_def1 : forall a1 a a2 c q1 q2 : N, o_le a1 a = true -> o_le a a2 = true -> (o_lt n_zero c = true \/ o_lt c n_zero = true) ->
    n_div a1 c = Ret q1 -> n_div a2 c = Ret q2 -> exists q, n_div a c = Ret q;
  nl_div_def2 : forall a c1 c c2 q1 q2 : N, ok a -> o_le c1 c = true -> o_le c c2 = true -> (o_lt n_zero c1 = true \/ o_lt c2 n_zero = true) ->
    n_div a c1 = Ret q1 -> n_div a c2 = Ret q2 -> exists q, n_div a c = Ret q;
  nl_div_nan : forall a b q : N, ok a -> ok b -> n_div a b = Ret q ->
    (ok q <-> ~ ((infinite a /\ infinite b) \/ (is_zero a /\ is_zero b)));
  nl_div_zero_int : n_float N = false -> forall a b : N, is_zero b -> n_div a b = UB;
  nl_div_zero_float : n_float N = true -> forall y : N, is_zero y -> pos_zero y \/ neg_zero y;
  nl_div_pos_zero : n_float N = true -> forall a y : N, pos_zero y ->
    (o_lt n_zero a = true -> n_div a y = Ret n_top) /\ (o_lt a n_zero = true -> n_div a y = Ret n_bot);
  nl_div_neg_zero : n_float N = true -> forall a y : N, neg_zero y ->
    (o_lt n_zero a = true -> n_div a y = Ret n_bot) /\ (o_lt a n_zero = true -> n_div a y = Ret n_top)
}.
