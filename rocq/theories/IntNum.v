(** Signed two's complement integers of [w] bits as a value type of intervals (the [std::signed_integral] instances of
    interval<T>, interval.hpp 783-852): int, long, std::ptrdiff_t, ... for w = 32, 64.  Signed overflow, division by zero
    and INT_MIN / -1 are undefined behaviour. *)
From Coq Require Import ZArith Bool Eqdep_dec.
From Verif Require Import Outcome Num.
Open Scope Z_scope.

(** Range of the type; [numeric_limits<T>::min()], [max()]. *)
Definition int_min (w : Z) : Z := - 2 ^ (w - 1).
Definition int_max (w : Z) : Z := 2 ^ (w - 1) - 1.
Definition in_range (w z : Z) : bool := (int_min w <=? z) && (z <=? int_max w).
Definition int (w : Z) : Type := { z : Z | in_range w z = true }.
Definition val {w} (a : int w) : Z := proj1_sig a.

(** The result [z] of a built-in operator; not representable: signed overflow. *)
Definition int_of (w z : Z) : outcome (int w) :=
  match bool_dec (in_range w z) true with
  | left H => Ret (exist _ z H)
  | right _ => UB
  end.

Definition int_ordty (w : Z) : ordty := {|
  car := int w;
  o_lt := fun a b => val a <? val b;
  o_le := fun a b => val a <=? val b;
  o_eq := fun a b => val a =? val b;
  o_disc := true;
  o_succ := fun a => int_of w (val a + 1);
  o_pred := fun a => int_of w (val a - 1)
|}.

(** A constant of the type; the proof of representability is part of the value. *)
Definition int_const (w z : Z) (H : in_range w z = true) : int w := exist _ z H.

Lemma range_facts w : 2 <= w -> int_min w = - 2 * 2 ^ (w - 2) /\ int_max w = 2 * 2 ^ (w - 2) - 1 /\ 1 <= 2 ^ (w - 2).
Proof.
  intros H. unfold int_min, int_max. replace (w - 1) with (Z.succ (w - 2)) by ring. rewrite Z.pow_succ_r by now apply Z.le_0_sub.
  split; [ring|]. split; [ring|]. apply (Z.le_succ_l 0). apply Z.pow_pos_nonneg; [reflexivity|now apply Z.le_0_sub].
Qed.
Lemma in_range_small w z : 2 <= w -> -1 <= z <= 1 -> in_range w z = true.
Proof.
  intros H [H1 H2]. destruct (range_facts w H) as (E1 & E2 & P). unfold in_range. apply andb_true_iff. rewrite E1, E2. split; apply Z.leb_le.
  - apply (Z.le_trans _ (-1)); [|exact H1]. apply (Z.le_trans _ (-2 * 1)); [|discriminate]. apply Z.mul_le_mono_nonpos_l; [discriminate|exact P].
  - apply (Z.le_trans _ 1); [exact H2|]. apply (Z.le_trans _ (2 * 1 - 1)); [discriminate|]. apply Z.sub_le_mono_r. apply Z.mul_le_mono_nonneg_l; [discriminate|exact P].
Qed.
Lemma in_range_0 w : 2 <= w -> in_range w 0 = true.
Proof. intros H. apply (in_range_small w 0 H). split; discriminate. Qed.
Lemma in_range_1 w : 2 <= w -> in_range w 1 = true.
Proof. intros H. apply (in_range_small w 1 H). split; discriminate. Qed.
Lemma in_range_m1 w : 2 <= w -> in_range w (-1) = true.
Proof. intros H. apply (in_range_small w (-1) H). split; discriminate. Qed.
Lemma in_range_max w : 2 <= w -> in_range w (int_max w) = true.
Proof.
  intros H. destruct (range_facts w H) as (E1 & E2 & P). unfold in_range. rewrite Z.leb_refl, andb_true_r. apply Z.leb_le. rewrite E1, E2.
  apply (Z.le_trans _ (- 2 * 1)); [apply Z.mul_le_mono_nonpos_l; [discriminate|exact P]|]. apply (Z.le_trans _ (2 * 1 - 1)); [discriminate|].
  apply Z.sub_le_mono_r. apply Z.mul_le_mono_nonneg_l; [discriminate|exact P].
Qed.
Lemma in_range_min w : 2 <= w -> in_range w (int_min w) = true.
Proof.
  intros H. generalize (in_range_max w H). unfold in_range. rewrite !Z.leb_refl, andb_true_r. auto.
Qed.

(** [T] as an arithmetic value type: [+ - * /] and [std::abs] with their overflow behaviour.  [n_nan] is never used for
    integers ([nan_interval] is only reached if [n_float]). *)
Definition int_num (w : Z) (Hw : 2 <= w) : num := {|
  n_ord := int_ordty w;
  n_float := false;
  n_top := int_const w (int_max w) (in_range_max w Hw);
  n_bot := int_const w (int_min w) (in_range_min w Hw);
  n_nan := int_const w 0 (in_range_0 w Hw);
  n_zero := int_const w 0 (in_range_0 w Hw);
  n_one := int_const w 1 (in_range_1 w Hw);
  n_mone := int_const w (-1) (in_range_m1 w Hw);
  n_neg := fun a : int_ordty w => int_of w (- val a);
  n_abs := fun a : int_ordty w => int_of w (Z.abs (val a));
  n_add := fun a b : int_ordty w => int_of w (val a + val b);
  n_sub := fun a b : int_ordty w => int_of w (val a - val b);
  n_mul := fun a b : int_ordty w => int_of w (val a * val b);
  n_div := fun a b : int_ordty w => if val b =? 0 then UB else int_of w (Z.quot (val a) (val b))
|}.

Lemma le_2_32 : 2 <= 32. Proof. discriminate. Qed.
Lemma le_2_64 : 2 <= 64. Proof. discriminate. Qed.
(** [int], [std::ptrdiff_t]. *)
Definition int32 : num := int_num 32 le_2_32.
Definition int64 : num := int_num 64 le_2_64.
(** The literal [z] of type int; used in examples. *)
Definition i32 (z : Z) : int32 := match int_of 32 z with Ret a => a | _ => n_zero end.
