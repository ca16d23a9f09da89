(** Conditions for which [constrain] does not do what a user expects. *)
From Coq Require Import Bool List Arith ZArith.
From Verif Require Import Outcome SetModel Spec Num NumLaws IntervalModel IvlSpec IvlProofs IntNum ValueTypes IvlWrap Refute ConstrainModel CondSpec ConstrainProofs.
Import ListNotations.
Open Scope nat_scope.

Definition X05 : ivl int32 := Ivl (i32 0) (i32 5).
Definition X03 : ivl int32 := Ivl (i32 0) (i32 3).
Definition iv (i : nat) (X : ivl int32) : term int32 := TVar i X.
Definition sc (z : Z) : term int32 := TVal (Sc (i32 z)).

Lemma tr_rel' (O : ordty) (rho : nat -> O) r s t x y b : tval rho s x -> tval rho t y -> rel_holds r x y = b -> truth rho (GRel r s t) b.
Proof. intros A B <-. now apply tr_rel. Qed.
Lemma tr_and' (O : ordty) (rho : nat -> O) f g : truth rho f true -> truth rho g true -> truth rho (GAnd f g) true.
Proof. intros A B. exact (tr_and rho f g true true A B). Qed.
Lemma tr_or_l (O : ordty) (rho : nat -> O) f g b : truth rho f true -> truth rho g b -> truth rho (GOr f g) true.
Proof. intros A B. exact (tr_or rho f g true b A B). Qed.
Lemma tr_or_r (O : ordty) (rho : nat -> O) f g b : truth rho f b -> truth rho g true -> truth rho (GOr f g) true.
Proof. intros A B. pose proof (tr_or rho f g b true A B) as H. now rewrite orb_true_r in H. Qed.
Lemma tr_not' (O : ordty) (rho : nat -> O) f : truth rho f false -> truth rho (GNot f) true.
Proof. intros A. exact (tr_not rho f false A). Qed.
Ltac sets := cbn; repeat split; trivial.
Lemma tval_iv rho i X : tval rho (iv i X) (rho i). Proof. reflexivity. Qed.
Lemma tval_sc rho z : tval rho (sc z) (i32 z).
Proof. pose proof (order_type_laws int32 (ot_num _ vt_int32)) as HO. assert (K : ok (i32 z)) by apply (nl_int_ok _ (value_type_laws _ vt_int32) eq_refl). split; cbn; clear - HO K; ord HO. Qed.
Ltac comparison := eapply tr_rel'; [apply tval_iv|(apply tval_iv || apply tval_sc)|reflexivity].

(** (x < 1) | (y < 2) with x = y = [0, 5]: x = 4, y = 1 satisfies it, but constrain(x, ...) = [0, 0]. *)
Definition f_or_other : cform int32 := GOr (GRel RLt (iv 0 X05) (sc 1)) (GRel RLt (iv 1 X05) (sc 2)).
Definition rho41 (i : nat) : int32 := match i with O => i32 4 | _ => i32 1 end.
Lemma or_other : legal f_or_other /\ mentions 0 f_or_other = true /\ occurs_as 0 X05 f_or_other /\ inside rho41 f_or_other /\ truth rho41 f_or_other true
  /\ exists Z, constrain_by true 0 X05 f_or_other = Ret Z /\ ~ el Z (rho41 0).
Proof.
  split; [split; sets|]. split; [reflexivity|]. split; [sets; intros E; discriminate E|]. split; [sets|]. split; [eapply tr_or_r; comparison|].
  destruct (ret_witness (constrain_by true 0 X05 f_or_other) (fun Z => negb (contains Z (i32 4)))) as (Z & E & H); [vm_compute; reflexivity|].
  exists Z. split; [exact E|]. intros K. apply contains_iff in K. change (rho41 0) with (i32 4) in K. rewrite K in H. discriminate.
Qed.

(** (x < 1) & ((y < 2) | (y < 3)): the disjunction resets the flag that x has been considered. *)
Definition f_flag : cform int32 := GAnd (GRel RLt (iv 0 X05) (sc 1)) (GOr (GRel RLt (iv 1 X05) (sc 2)) (GRel RLt (iv 1 X05) (sc 3))).
Definition f_flag' : cform int32 := GAnd (GOr (GRel RLt (iv 1 X05) (sc 2)) (GRel RLt (iv 1 X05) (sc 3))) (GRel RLt (iv 0 X05) (sc 1)).
Definition rho00 (i : nat) : int32 := i32 0.
Lemma and_order : legal f_flag /\ mentions 0 f_flag = true /\ occurs_as 0 X05 f_flag /\ inside rho00 f_flag /\ truth rho00 f_flag true
  /\ constrain_by true 0 X05 f_flag = FailFast /\ exists Z, constrain_by true 0 X05 f_flag' = Ret Z.
Proof.
  split; [split; sets|]. split; [reflexivity|]. split; [sets; intros E; discriminate E|]. split; [sets|].
  split; [apply tr_and'; [comparison|eapply tr_or_r; comparison]|]. split; [reflexivity|].
  destruct (ret_witness (constrain_by true 0 X05 f_flag') (fun Z => contains Z (i32 0))) as (Z & E & H); [vm_compute; reflexivity|]. eauto.
Qed.

(** ((x < 1) & (x > 2)) | (x > 0) with x = [0, 3]. *)
Definition f_contra : cform int32 := GOr (GAnd (GRel RLt (iv 0 X03) (sc 1)) (GRel RGt (iv 0 X03) (sc 2))) (GRel RGt (iv 0 X03) (sc 0)).
Definition rho3 (i : nat) : int32 := i32 3.
Lemma contra : legal f_contra /\ mentions 0 f_contra = true /\ occurs_as 0 X03 f_contra /\ inside rho3 f_contra /\ truth rho3 f_contra true
  /\ constrain_by true 0 X03 f_contra = FailFast /\ constrain_by false 0 X03 f_contra = FailFast.
Proof.
  split; [split; sets|]. split; [reflexivity|]. split; [sets; intros E; discriminate E|]. split; [sets|].
  split; [|split; reflexivity]. eapply tr_or_r; [|comparison]. eapply (tr_and _ _ _ false true); comparison.
Qed.

(** !((x < 1) & b) with a bool b = true: the negation forgets the comparison. *)
Definition f_slice : cform int32 := GNot (GAnd (GRel RLt (iv 0 X03) (sc 1)) (GBool true)).
Lemma slice : legal f_slice /\ mentions 0 f_slice = true /\ occurs_as 0 X03 f_slice /\ inside rho3 f_slice /\ truth rho3 f_slice true
  /\ conjunctive (nnf true (GNot (GRel RLt (iv 0 X03) (sc 1)))) = true
  /\ constrain_by true 0 X03 f_slice = FailFast /\ exists Z, constrain_by true 0 X03 (GNot (GRel RLt (iv 0 X03) (sc 1))) = Ret Z.
Proof.
  split; [split; sets|]. split; [reflexivity|]. split; [sets; intros E; discriminate E|]. split; [sets|].
  split. { apply tr_not'. eapply (tr_and _ _ _ false true); [comparison|constructor]. }
  split; [reflexivity|]. split; [reflexivity|].
  destruct (ret_witness (constrain_by true 0 X03 (GNot (GRel RLt (iv 0 X03) (sc 1)))) (fun Z => contains Z (i32 1))) as (Z & E & H); [vm_compute; reflexivity|]. eauto.
Qed.

(** (x < 1) & (y < 0) with y = [0, 3]: impossible, but x is returned as it is. *)
Definition f_ignored : cform int32 := GAnd (GRel RLt (iv 0 X03) (sc 1)) (GRel RLt (iv 1 X03) (sc 0)).
Lemma ignored : legal f_ignored /\ mentions 0 f_ignored = true /\ occurs_as 0 X03 f_ignored /\ ~ possible f_ignored true
  /\ constrain_by true 0 X03 f_ignored = Ret X03.
Proof.
  split; [split; sets|]. split; [reflexivity|]. split; [sets; intros E; discriminate E|]. split; [|reflexivity].
  intros H. apply possible_and in H. destruct H as (a & b & _ & Hg & E). apply andb_true_iff in E. destruct E as [_ ->].
  apply possible_rel in Hg. destruct Hg as (u & v & Hu & Hv & E).
  destruct Hu as [Hu _], Hv as [_ Hv]. pose proof (order_type_laws int32 (ot_num _ vt_int32)) as HO. cbn [rel_holds alower aupper lo hi] in *.
  clear - HO Hu Hv E. assert (K : o_lt (i32 0) (i32 0) = true) by ord HO. discriminate K.
Qed.

(** y > x - style comparisons of the stored operand: after x has been narrowed to [4, 5], x == [0, 5] gives back [0, 5]. *)
Definition f_stale : cform int32 := GRel REq (iv 0 X05) (TVal (Iv X05)).
Lemma stale : legal f_stale /\ proper (Ivl (i32 4) (i32 5)) /\ subset (Ivl (i32 4) (i32 5)) X05
  /\ exists Z, constrain_by true 0 (Ivl (i32 4) (i32 5)) f_stale = Ret Z /\ ~ subset Z (Ivl (i32 4) (i32 5)).
Proof.
  split; [split; sets|]. split; [reflexivity|]. split.
  { intros v [A B]. pose proof (order_type_laws int32 (ot_num _ vt_int32)) as HO. split; [|exact B]. assert (K : o_le (i32 0) (i32 4) = true) by reflexivity.
    cbn [lo hi] in *. unfold X05; cbn [lo hi]. clear - HO A K. ord HO. }
  destruct (ret_witness (constrain_by true 0 (Ivl (i32 4) (i32 5)) f_stale) (fun Z => contains Z (i32 0))) as (Z & E & H); [vm_compute; reflexivity|].
  exists Z. split; [exact E|]. intros S. apply contains_iff in H. specialize (S _ H). destruct S as [S _]. discriminate S.
Qed.

(** !((x < 1) | b) with a bool b = false: the same. *)
Definition f_mix : cform int32 := GNot (GOr (GRel RLt (iv 0 X03) (sc 1)) (GBool false)).
Lemma mixture_refuted : exists (f : cform int32) X rho, legal f /\ conjunctive (nnf true f) = true /\ mentions 0 f = true /\ occurs_as 0 X f
  /\ inside rho f /\ truth rho f true /\ constrain_by true 0 X f = FailFast.
Proof.
  exists f_mix, X03, rho3. split; [split; sets|]. split; [reflexivity|]. split; [reflexivity|]. split; [sets|]. split; [sets|]. split; [|reflexivity].
  apply tr_not'. eapply (tr_or _ _ _ false false); [comparison|constructor].
Qed.

(** Conditions used as examples. *)
Definition f_both : cform int32 := GAnd (GNot (GOr (GRel RLt (iv 0 X05) (sc 1)) (GRel REq (iv 0 X05) (sc 5)))) (GRel RLe (iv 1 X05) (iv 0 X05)).
Definition f_tame : cform int32 := GNot (GAnd (GRel RGe (iv 0 X05) (sc 1)) (GRel RGe (iv 1 X05) (iv 0 X05))).
Lemma f_both_true : truth rho41 f_both true.
Proof. apply tr_and'; [|comparison]. apply tr_not'. eapply (tr_or _ _ _ false false); comparison. Qed.
Lemma f_tame_true : truth rho41 f_tame true.
Proof. apply tr_not'. eapply (tr_and _ _ _ true false); comparison. Qed.
