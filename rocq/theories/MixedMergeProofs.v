(** Proofs about [merge] and [intersect] of intervals of different value types (C73) and of unassigned intervals (C38). *)
From Coq Require Import Bool List ZArith.
From Verif Require Import Outcome SetModel Num NumLaws IntervalModel IvlSpec IvlProofs ArithProofs ArithProofs4 ValueTypes MixedArithModel MixedArithProofs ConvProofs MixedMergeModel MixedMergeSpec.
Import ListNotations.

Section Proofs.
  Context {T : num} (HT : value_type T).
  Let NT := value_type_laws T HT.
  Let OT := nl_ord T NT.

  Lemma to_common_hull (o : operand_to T) : usual o -> oproper o -> exists X, to_common o = Ret X /\ proper X /\ is_hull (gives o) X.
  Proof.
    destruct o as [Y|U c Y]; cbn [usual oproper to_common].
    - intros _ P. exists Y. split; [reflexivity|]. split; [exact P|]. exact (is_hull_self OT Y P).
    - intros C P. destruct (converts_laws U T c HT C) as (NU & _ & CL). pose proof (nl_ord U NU) as OU. exists (Ivl (c (lo Y)) (c (hi Y))).
      assert (E : iconvert (fun a : U => Ret (c a)) Y = Ret (Ivl (c (lo Y)) (c (hi Y)))) by (unfold iconvert; now rewrite (proper_assigned OU Y P)).
      split; [exact E|]. assert (M : o_le (c (lo Y)) (c (hi Y)) = true) by exact (cv_mono _ _ _ CL _ _ P). split; [exact M|].
      assert (A : o_eq (c (lo Y)) (c (lo Y)) = true) by ord OT. assert (B : o_eq (c (hi Y)) (c (hi Y)) = true) by ord OT.
      split; [|split].
      + intros v (u & [L R] & ->). split; cbn [lo hi]; now apply (cv_mono _ _ _ CL).
      + exists (c (lo Y)). split; [|exact A]. exists (lo Y). split; [exact (el_lower OU Y P)|reflexivity].
      + exists (c (hi Y)). split; [|exact B]. exists (hi Y). split; [exact (el_upper OU Y P)|reflexivity].
  Qed.
  Lemma hull_spans (P : T -> Prop) X v : is_hull P X -> el X v <-> exists a b, P a /\ P b /\ o_le a v = true /\ o_le v b = true.
  Proof.
    intros (G & (a & Pa & Ea) & (b & Pb & Eb)). split.
    - intros [L R]. exists a, b. split; [exact Pa|]. split; [exact Pb|]. split; ord OT.
    - intros (p & q & Pp & Pq & L & R). destruct (G p Pp) as [G1 G2], (G q Pq) as [G3 G4]. split; ord OT.
  Qed.

  Lemma mixed_merge_hull (o : operand_to T) l : usual o -> oproper o -> Forall proper l ->
    exists Z, mixed_merge o l = Ret Z /\ is_hull (fun v => gives o v \/ exists Y, In Y l /\ el Y v) Z.
  Proof.
    intros U P Pl. destruct (to_common_hull o U P) as (X & E & PX & (G & (a & Pa & Ea) & (b & Pb & Eb))).
    destruct (merge_hull OT X l PX Pl) as (Z & EZ & (G' & Lo & Hi)). exists Z. unfold mixed_merge. rewrite E. split; [exact EZ|].
    split; [|split].
    - intros v [Hv|(Y & HY & Hv)]; apply G'; [exists X; split; [now left|now apply G]|exists Y; split; [now right|exact Hv]].
    - destruct Lo as (v & (Y & [<-|HY] & Hv) & Ev); [|exists v; split; [right; eauto|exact Ev]]. exists a. split; [now left|].
      assert (Q : el Z a) by (apply G'; exists X; split; [now left|now apply G]). destruct Q, Hv. ord OT.
    - destruct Hi as (v & (Y & [<-|HY] & Hv) & Ev); [|exists v; split; [right; eauto|exact Ev]]. exists b. split; [now left|].
      assert (Q : el Z b) by (apply G'; exists X; split; [now left|now apply G]). destruct Q, Hv. ord OT.
  Qed.
  Lemma merge_default (Y : ivl T) l : proper Y -> Forall proper l ->
    exists Z, merge ivl_default (Y :: l) = Ret Z /\ is_hull (fun v => exists W, In W (Y :: l) /\ el W v) Z.
  Proof.
    intros P Pl. destruct (default_assign NT Y P) as (X & E & HX).
    assert (S : forall v, el X v <-> el Y v).
    { intros v. rewrite (hull_spans (el Y) X v HX). split; [intros (a & b & [A1 A2] & [B1 B2] & L & R); split; ord OT|].
      intros [L R]. exists (lo Y), (hi Y). split; [exact (el_lower OT Y P)|]. split; [exact (el_upper OT Y P)|]. now split. }
    destruct (merge_hull OT X l (is_hull_proper OT _ _ HX) Pl) as (Z & EZ & HZ). exists Z. unfold merge in *. cbn [merge_from]. rewrite E. cbn [bind].
    split; [exact EZ|]. refine (is_hull_ext _ _ _ _ HZ). intros v. split; intros (W & [<-|HW] & Hv).
    - exists Y. split; [now left|now apply S].
    - exists W. split; [now right|exact Hv].
    - exists X. split; [now left|now apply S].
    - exists W. split; [now right|exact Hv].
  Qed.
  Lemma mixed_merge_unassigned (o : operand_to T) (Y : ivl T) l : ounassigned o -> proper Y -> Forall proper l ->
    exists Z, mixed_merge o (Y :: l) = Ret Z /\ is_hull (fun v => exists W, In W (Y :: l) /\ el W v) Z.
  Proof.
    destruct o as [X|U c X]; cbn [ounassigned]; [easy|]. intros A P Pl. unfold mixed_merge. cbn [to_common]. unfold iconvert. rewrite A. cbn [bind]. now apply merge_default.
  Qed.

  Lemma mixed_intersect_list (l : list (operand_to T)) (X : ivl T) : Forall usual l -> Forall oproper l ->
    exists L, mixed_intersect_from X l = intersect X L /\ Forall proper L /\ Forall2 (fun o Y => is_hull (gives o) Y) l L.
  Proof.
    revert X. induction l as [|o l IH]; intros X Ul Pl.
    - exists []. split; [reflexivity|]. split; constructor.
    - inversion Ul as [|? ? Uo Ul']; inversion Pl as [|? ? Po Pl']; subst. destruct (to_common_hull o Uo Po) as (Y & E & PY & HY).
      cbn [mixed_intersect_from]. rewrite E. cbn [bind]. unfold intersect. cbn [intersect_from]. destruct (narrow_interval X Y) as [X'| | | |] eqn:EX.
      1: destruct (IH X' Ul' Pl') as (L & EL & PL & FL).
      2-5: destruct (IH Y Ul' Pl') as (L & EL & PL & FL).
      all: exists (Y :: L); cbn [intersect_from bind]; rewrite EX; (split; [try exact EL; reflexivity|]); split; constructor; assumption.
  Qed.
  Lemma hulls_common (ops : list (operand_to T)) L v : Forall2 (fun o Y => is_hull (gives o) Y) ops L ->
    (forall o, In o ops -> spans o v) <-> (forall Y, In Y L -> el Y v).
  Proof.
    intros F. induction F as [|o Y ops L H F IH]; [now split|]. unfold spans in *. split; intros A.
    - intros W [<-|HW]; [apply (hull_spans _ _ v H), A; now left|]. apply (proj1 IH); [|exact HW]. intros o' Ho. apply A. now right.
    - intros o' [<-|Ho]; [apply (hull_spans _ _ v H), A; now left|]. apply (proj2 IH); [|exact Ho]. intros W HW. apply A. now right.
  Qed.
  Lemma mixed_intersect_common (o : operand_to T) l : Forall usual (o :: l) -> Forall oproper (o :: l) -> (exists v, forall p, In p (o :: l) -> spans p v) ->
    exists Z, mixed_intersect o l = Ret Z /\ forall v, el Z v <-> forall p, In p (o :: l) -> spans p v.
  Proof.
    intros Ul Pl (w & Hw). inversion Ul as [|? ? Uo Ul']; inversion Pl as [|? ? Po Pl']; subst. destruct (to_common_hull o Uo Po) as (X & E & PX & HX).
    destruct (mixed_intersect_list l X Ul' Pl') as (L & EL & PL & FL). assert (F : Forall2 (fun o Y => is_hull (gives o) Y) (o :: l) (X :: L)) by now constructor.
    destruct (intersect_common OT X L PX PL) as (Z & EZ & HZ). { exists w. now apply (hulls_common _ _ w F). }
    exists Z. unfold mixed_intersect. rewrite E. cbn [bind]. rewrite EL. split; [exact EZ|]. intros v. rewrite HZ. symmetry. exact (hulls_common _ _ v F).
  Qed.
  Lemma mixed_intersect_returns (o : operand_to T) l : Forall usual (o :: l) -> Forall oproper (o :: l) -> exists Z, mixed_intersect o l = Ret Z /\ proper Z.
  Proof.
    intros Ul Pl. inversion Ul as [|? ? Uo Ul']; inversion Pl as [|? ? Po Pl']; subst. destruct (to_common_hull o Uo Po) as (X & E & PX & HX).
    destruct (mixed_intersect_list l X Ul' Pl') as (L & EL & PL & _). unfold mixed_intersect. rewrite E. cbn [bind]. rewrite EL. exact (intersect_returns OT X L PX PL).
  Qed.

  (** An unassigned argument makes the intersection everything. *)
  Lemma intersect_default (X : ivl T) : proper X -> exists Z, intersect X [ivl_default] = Ret Z /\ forall v, ok v -> el Z v.
  Proof.
    intros P. unfold proper in P. unfold intersect. cbn [intersect_from]. unfold narrow_interval, ivl_default. cbn [lo hi].
    destruct (nl_zero T NT) as [Z1 Z2]. pose proof (nl_top T NT (lo X) ltac:(unfold ok; ord OT)) as A. pose proof (nl_bot T NT (hi X) ltac:(unfold ok; ord OT)) as B.
    set (l := omax (lo X) n_top). set (h := omin (hi X) n_bot).
    assert (El : o_eq l n_top = true) by (unfold l, omax; destruct (o_lt (lo X) n_top) eqn:E; ord OT).
    assert (Eh : o_eq h n_bot = true) by (unfold h, omin; destruct (o_lt n_bot (hi X)) eqn:E; ord OT).
    assert (LT : o_lt h l = true) by ord OT. assert (GE : o_lt l h = false) by ord OT.
    unfold from_unordered_bounds, omin, omax, mk. rewrite LT, GE, GE. cbn. exists (Ivl h l). split; [reflexivity|].
    intros v V. pose proof (nl_top T NT v V). pose proof (nl_bot T NT v V). split; cbn [lo hi]; ord OT.
  Qed.
  Lemma mixed_intersect_unassigned (X : ivl T) (o : operand_to T) : proper X -> ounassigned o -> exists Z, mixed_intersect (Same X) [o] = Ret Z /\ forall v, ok v -> el Z v.
  Proof.
    destruct o as [Y|U c Y]; cbn [ounassigned]; [easy|]. intros P A. destruct (intersect_default X P) as (Z & E & H). exists Z. split; [|exact H].
    unfold mixed_intersect. cbn [to_common mixed_intersect_from bind]. unfold iconvert. rewrite A. cbn [bind]. unfold intersect in E. cbn [intersect_from] in E.
    destruct (narrow_interval X ivl_default) as [X'| | | |]; cbn [bind] in *; exact E.
  Qed.
End Proofs.
