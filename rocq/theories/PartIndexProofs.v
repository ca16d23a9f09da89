(** The constraint by a partition with an index outside of the range (C41). *)
From Coq Require Import Bool List ZArith Lia.
From Verif Require Import Outcome Num NumLaws IntervalModel IvlSpec IntNum ConstrainModel AlgoModel AlgoSpec.
Import ListNotations.

Section Index.
  Context {O : ordty} {A : Type}.
  Notation index := (int_ordty 64).
  Implicit Types (r : list A) (i j : arg index) (X : ivl O).

  Lemma part_index_debug r i : ~ ((0 <= val (alower i))%Z /\ (val (aupper i) <= size r)%Z) -> part_index true r i = FailFast.
  Proof.
    intros H. assert (E : (0 <=? val (alower i))%Z && (val (aupper i) <=? size r)%Z = false).
    { apply andb_false_iff. destruct (Z.leb_spec 0 (val (alower i))), (Z.leb_spec (val (aupper i)) (size r)); auto. lia. }
    destruct i as [k|K]; cbn in *; rewrite E; [reflexivity|]. now destruct (@assigned index K).
  Qed.
  Lemma index_le (a b : index) : o_le a b = true <-> (val a <= val b)%Z. Proof. apply Z.leb_le. Qed.
  Lemma index_assigned (K : ivl index) : assigned K = (val (lo K) <=? val (hi K))%Z.
  Proof. unfold assigned. change (o_lt (hi K) (lo K)) with (val (hi K) <? val (lo K))%Z. now rewrite Z.ltb_antisym, negb_involutive. Qed.
  Lemma part_index_unassigned dbg r i : ~ aproper i -> part_index dbg r i = FailFast.
  Proof.
    unfold aproper. rewrite index_le. destruct i as [k|K]; intros H; [destruct H; apply Z.le_refl|].
    unfold part_index. rewrite index_assigned. destruct (Z.leb_spec (val (lo K)) (val (hi K))); [contradiction|reflexivity].
  Qed.
  Lemma part_index_release r i : aproper i -> part_index false r i = Ret i.
  Proof.
    unfold aproper. rewrite index_le. destruct i as [k|K]; intros H; [reflexivity|].
    unfold part_index. rewrite index_assigned. apply Z.leb_le in H. change (alower (Iv K)) with (lo K) in H. change (aupper (Iv K)) with (hi K) in H. now rewrite H.
  Qed.
  Lemma elem_out r k : ~ (0 <= k < size r)%Z -> elem r k = UB.
  Proof.
    intros H. unfold elem. destruct (Z.ltb_spec k 0); [reflexivity|]. destruct (nth_error r (Z.to_nat k)) eqn:E; [|reflexivity].
    assert (L : Z.to_nat k < length r) by (apply nth_error_Some; congruence). exfalso. apply H. split; [assumption|]. lia.
  Qed.

  Lemma part_out_debug x X (p : A -> outcome (cond O)) r i : ~ (aproper i /\ (0 <= val (alower i))%Z /\ (val (aupper i) <= size r)%Z) ->
    part_constrain true x X p r i = FailFast.
  Proof.
    intros H. unfold part_constrain. destruct (o_le (alower i) (aupper i)) eqn:E.
    - rewrite part_index_debug; [reflexivity|]. intros [B C]. apply H. repeat split; assumption.
    - rewrite part_index_unassigned; [reflexivity|]. unfold aproper. congruence.
  Qed.
  Lemma part_unassigned dbg x X (p : A -> outcome (cond O)) r i : ~ aproper i -> part_constrain dbg x X p r i = FailFast.
  Proof. intros H. unfold part_constrain. now rewrite part_index_unassigned. Qed.
  Lemma part_out_release x X (p : A -> outcome (cond O)) r i : aproper i -> r <> [] -> (val (aupper i) < 0 \/ size r < val (alower i))%Z ->
    part_constrain false x X p r i = UB.
  Proof.
    intros Hi Hr H. unfold part_constrain. rewrite part_index_release by assumption. cbn [bind].
    assert (L : (val (alower i) <= val (aupper i))%Z) by (apply Z.leb_le; exact Hi).
    assert (P : (0 < size r)%Z) by (destruct r; [congruence|cbn; lia]).
    destruct r as [|a r']; [congruence|]. set (r := a :: r') in *.
    destruct (Z.ltb_spec 0 (val (alower i))).
    - rewrite elem_out by lia. reflexivity.
    - cbn [bind]. destruct (Z.ltb_spec (val (aupper i)) (size r)); [|lia]. rewrite elem_out by lia. reflexivity.
  Qed.
  Lemma part_clamped x X (p : A -> outcome (cond O)) r i j : aproper i -> aproper j ->
    val (alower j) = Z.max 0 (val (alower i)) -> val (aupper j) = Z.min (size r) (val (aupper i)) ->
    part_constrain false x X p r i = part_constrain false x X p r j.
  Proof.
    intros Hi Hj El Eu. unfold part_constrain. rewrite !part_index_release by assumption. cbn [bind]. destruct r as [|a r']; [reflexivity|]. set (r := a :: r') in *.
    assert (P : (0 < size r)%Z) by (unfold r; cbn; lia). rewrite El, Eu.
    f_equal.
    - destruct (Z.ltb_spec 0 (val (alower i))); [rewrite (proj2 (Z.ltb_lt _ _)) by lia; now rewrite Z.max_r by lia|]. now rewrite (proj2 (Z.ltb_ge _ _)) by lia.
    - destruct (Z.ltb_spec (val (aupper i)) (size r)); [rewrite (proj2 (Z.ltb_lt _ _)) by lia; now rewrite Z.min_r by lia|]. now rewrite (proj2 (Z.ltb_ge _ _)) by lia.
  Qed.
  Lemma part_scalar_out (x : O) (p : A -> outcome bool) r i :
    (~ (aproper i /\ (0 <= val (alower i))%Z /\ (val (aupper i) <= size r)%Z) -> part_constrain_scalar true x p r i = FailFast)
    /\ (forall dbg, ~ aproper i -> part_constrain_scalar dbg x p r i = FailFast)
    /\ (aproper i -> part_constrain_scalar false x p r i = Ret x).
  Proof.
    split; [|split; [intros dbg H; unfold part_constrain_scalar; now rewrite part_index_unassigned|]].
    - intros H. unfold part_constrain_scalar. destruct (o_le (alower i) (aupper i)) eqn:E.
      + rewrite part_index_debug; [reflexivity|]. intros [B C]. apply H. repeat split; assumption.
      + rewrite part_index_unassigned; [reflexivity|]. unfold aproper. congruence.
    - intros H. unfold part_constrain_scalar. rewrite part_index_release by assumption. now destruct r.
  Qed.
  Lemma part_out_of_range x X (p : A -> outcome (cond O)) r i :
    (~ (aproper i /\ (0 <= val (alower i))%Z /\ (val (aupper i) <= size r)%Z) -> part_constrain true x X p r i = FailFast)
    /\ (forall dbg, ~ aproper i -> part_constrain dbg x X p r i = FailFast)
    /\ (aproper i -> r <> [] -> (val (aupper i) < 0 \/ size r < val (alower i))%Z -> part_constrain false x X p r i = UB)
    /\ (aproper i -> forall j, aproper j -> val (alower j) = Z.max 0 (val (alower i)) -> val (aupper j) = Z.min (size r) (val (aupper i)) ->
        part_constrain false x X p r i = part_constrain false x X p r j).
  Proof. split; [apply part_out_debug|]. split; [intros dbg; apply part_unassigned|]. split; [apply part_out_release|]. intros H j Hj. now apply part_clamped. Qed.
End Index.
