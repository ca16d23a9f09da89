(** Properties of iterator intervals (C44). *)
From Coq Require Import Bool List ZArith.
From Verif Require Import Outcome SetModel Num NumLaws IntervalModel IvlSpec IntNum FloatNum IterModel IterProofs ValueTypes IvlWrap.
Import ListNotations.
Open Scope Z_scope.

(** [exact_hull f F a b]: undefined behaviour exactly if some pointwise result is undefined, otherwise the hull of all. *)
Theorem C44_add : forall n w dbg (a : arg (iter_ordty n)) (d : arg (int_ordty w)), aproper a -> aproper d -> exact_hull iter_add (it_add dbg a d) a d.
Proof. exact (@it_add_exact). Qed.
Print Assumptions C44_add.
Theorem C44_add_commuted : forall n w dbg (a : arg (iter_ordty n)) (d : arg (int_ordty w)), aproper a -> aproper d -> exact_hull iter_add_rev (it_add_rev dbg d a) d a.
Proof. exact (@it_add_rev_exact). Qed.
Print Assumptions C44_add_commuted.
Theorem C44_sub : forall n w dbg (a : arg (iter_ordty n)) (d : arg (int_ordty w)), aproper a -> aproper d -> exact_hull iter_sub (it_sub dbg a d) a d.
Proof. exact (@it_sub_exact). Qed.
Print Assumptions C44_sub.
Theorem C44_difference : forall n w dbg (a b : arg (iter_ordty n)), aproper a -> aproper b -> exact_hull (@iter_diff n w) (it_diff dbg a b) a b.
Proof. exact (@it_diff_exact). Qed.
Print Assumptions C44_difference.
(** The difference of iterators is always defined if the size of the range is representable. *)
Theorem C44_difference_defined : forall n w (a b : arg (iter_ordty n)), aproper a -> aproper b -> 0 <= n <= int_max w -> defined2 (@iter_diff n w) a b.
Proof. exact (@it_diff_defined). Qed.
Print Assumptions C44_difference_defined.
Theorem C44_prev : forall n (X : ivl (iter_ordty n)), proper X -> exact_hull1 (@o_pred (iter_ordty n)) (it_prev X) X.
Proof. exact (@it_prev_exact). Qed.
Print Assumptions C44_prev.
Theorem C44_next : forall n (X : ivl (iter_ordty n)), proper X -> exact_hull1 (@o_succ (iter_ordty n)) (it_next X) X.
Proof. exact (@it_next_exact). Qed.
Print Assumptions C44_next.
Theorem C44_deref : forall N, value_type N -> forall (r : list N) (X : ivl (iter_ordty (Z.of_nat (length r)))), proper X -> Forall ok r ->
  exact_hull1 (O' := N) (deref_at r) (deref r X) X.
Proof. exact (fun N H r X => deref_exact (value_type_laws N H) r X). Qed.
Print Assumptions C44_deref.
Theorem C44_subscript : forall N, value_type N -> forall dbg (r : list N) (X : ivl (iter_ordty (Z.of_nat (length r)))) (d : arg (int_ordty 64)),
  proper X -> aproper d -> Forall ok r ->
  exact_hull (O' := N) (fun x d => y <- iter_add x d ;; deref_at r y) (subscript dbg r X d) (Iv X) d.
Proof. exact (fun N H dbg r X d => subscript_exact (value_type_laws N H) dbg r X d). Qed.
Print Assumptions C44_subscript.

Definition ex_range : list int32 := [i32 4; i32 1; i32 7].
Definition ex_pos (z : Z) : iter_ordty 3 := match iter_of 3 z with Ret a => a | _ => exist _ 0 eq_refl end.
Example C44_example : @proper (iter_ordty 3) (Ivl (ex_pos 0) (ex_pos 1)) /\ Forall ok ex_range
  /\ (exists Z, deref ex_range (Ivl (ex_pos 0) (ex_pos 1)) = Ret Z /\ matches_ivl Z (Ivl (i32 1) (i32 4)) = true)
  /\ deref ex_range (Ivl (ex_pos 2) (ex_pos 3)) = UB
  /\ (exists Z, @it_add 3 64 true (Iv (Ivl (ex_pos 0) (ex_pos 1))) (Sc (exist _ 2 eq_refl)) = Ret Z /\ @matches_ivl (iter_ordty 3) Z (Ivl (ex_pos 2) (ex_pos 3)) = true).
Proof.
  split; [reflexivity|]. split; [repeat constructor|]. split; [apply ret_witness; vm_compute; reflexivity|]. split; [reflexivity|].
  apply (ret_witness _ (fun Z => @matches_ivl (iter_ordty 3) Z (Ivl (ex_pos 2) (ex_pos 3)))). vm_compute. reflexivity.
Qed.
