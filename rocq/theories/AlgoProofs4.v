(** Combined statements and concrete cases for the algorithms. *)
From Coq Require Import Bool List Arith ZArith Lia.
From Verif Require Import Outcome SetModel Spec SetProofs Num NumLaws IntervalModel IvlSpec IvlProofs IntNum IntProofs IterModel IterProofs FloatNum ValueTypes Refute
  ConstrainModel CondSpec AlgoModel AlgoSpec AlgoProofs AlgoProofs2 AlgoProofs3.
Import ListNotations.
Open Scope nat_scope.

Section Order.
  Context {O : ordty} (HO : ord_laws O).
  Fixpoint sortedb (l : list O) : bool := match l with [] => true | a :: l' => o_le a a && match l' with [] => true | b :: _ => o_le a b && sortedb l' end end.
  Lemma sortedb_head a l : sortedb (a :: l) = true -> forall w, In w (a :: l) -> o_le a w = true.
  Proof.
    revert a. induction l as [|b l IH]; intros a H w [<-|Hw]; cbn in H; apply andb_true_iff in H as [H1 H2]; try exact H1; [destruct Hw|].
    apply andb_true_iff in H2 as [H2 H3]. apply (ol_trans _ HO _ b); [exact H2|]. now apply (IH b).
  Qed.
  Lemma sortedb_sorted l : sortedb l = true -> sorted l.
  Proof.
    induction l as [|a l IH]; intros H i j v w L Ei Ej; [destruct i; discriminate Ei|]. destruct i as [|i].
    - injection Ei as <-. apply (sortedb_head a l H). eapply nth_error_In, Ej.
    - destruct j as [|j]; [lia|]. assert (Hl : sortedb l = true). { cbn in H. apply andb_true_iff in H as [_ H]. destruct l; [reflexivity|]. apply andb_true_iff in H. apply H. }
      apply (IH Hl i j); auto. lia.
  Qed.
  (** Scalar searches return the one position of the specification. *)
  Lemma lower_scalar_spec (r : list O) v : sorted r -> exists k i, lower_bound_at r v k /\ (forall k', lower_bound_at r v k' -> k' = k) /\ lower_bound_scalar r v = Ret i /\ idx i = Z.of_nat k.
  Proof.
    intros S. destruct (lower_exists HO r v S) as (k & Hk). destruct (lower_scalar r v k Hk) as (i & Hi). exists k, i. split; [exact Hk|]. split; [|exact Hi].
    intros k' Hk'. exact (splits_unique _ r k' k Hk' Hk).
  Qed.
  Lemma upper_scalar_spec (r : list O) v : sorted r -> ok v -> exists k i, upper_bound_at r v k /\ (forall k', upper_bound_at r v k' -> k' = k) /\ upper_bound_scalar r v = Ret i /\ idx i = Z.of_nat k.
  Proof.
    intros S Hv. destruct (upper_exists HO r v S Hv) as (k & Hk). destruct (upper_scalar r v k Hk) as (i & Hi). exists k, i. split; [exact Hk|]. split; [|exact Hi].
    intros k' Hk'. exact (splits_unique _ r k' k Hk' Hk).
  Qed.
  (** The constraint by a partition, for a scalar. *)
  Lemma scalar_lower_part dbg (r : list O) v i k : index_ok r i -> lower_bound_at r v k ->
    (index_in i k -> part_constrain_scalar dbg v (lower_pred_scalar v) r i = Ret v) /\ (~ index_in i k -> part_constrain_scalar true v (lower_pred_scalar v) r i = FailFast).
  Proof. intros HI S. split; intros Hin; [apply (scalar_part dbg r i v (fun e => o_lt e v) k HI S Hin)|apply (scalar_part_bad r i v (fun e => o_lt e v) k HI S Hin)]. Qed.
  Lemma scalar_upper_part dbg (r : list O) v i k : index_ok r i -> upper_bound_at r v k ->
    (index_in i k -> part_constrain_scalar dbg v (upper_pred_scalar v) r i = Ret v) /\ (~ index_in i k -> part_constrain_scalar true v (upper_pred_scalar v) r i = FailFast).
  Proof.
    intros HI S. assert (S' : splits (fun e => negb (o_lt v e) = true) r k). { revert S. apply splits_ext. intros e _. now rewrite negb_true_iff. }
    split; intros Hin; [apply (scalar_part dbg r i v (fun e => negb (o_lt v e)) k HI S' Hin)|apply (scalar_part_bad r i v (fun e => negb (o_lt v e)) k HI S' Hin)].
  Qed.
End Order.

(** The range 1, 3, 3, 7. *)
Definition r1337 : list int32 := [i32 1; i32 3; i32 3; i32 7].
Lemma r1337_sorted : sorted r1337. Proof. apply (sortedb_sorted (int_ord_laws 32)). reflexivity. Qed.
Definition V25 : ivl int32 := Ivl (i32 2) (i32 5).
Definition i64 (z : Z) : int64 := match int_of 64 z with Ret a => a | _ => @n_zero int64 end.
Definition I23 : ivl (int_ordty 64) := @Ivl (int_ordty 64) (i64 2) (i64 3).
Lemma I23_ok : index_ok r1337 (Iv I23). Proof. split; [reflexivity|]. split; discriminate. Qed.
(** A predicate without a value. *)
Definition no_value (e : int32) : outcome (cond int32) := Ret (CSet set_empty).
Definition some_value (e : int32) : outcome (cond int32) := Ret (CSet (if Z.eqb (val e) 1 then bset_of true else if Z.eqb (val e) 7 then bset_of false else bset_both)).
