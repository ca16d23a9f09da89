(** Expressions that mention a variable twice, and [square] of an expression: the interval result is wider than the hull of the values. *)
From Coq Require Import Bool List Arith ZArith Lia.
From Verif Require Import Outcome SetModel Spec Num NumLaws IntervalModel IvlSpec IvlProofs IntNum IntProofs ValueTypes IvlWrap ConstrainModel CondSpec
  MathModel MathSpec LangModel LangSpec LangProofs2 IsoProofs4 UseSpec.
Import ListNotations.

Lemma zero_or_one (x : int32) : el (zi 0 1) x -> x = i32 0 \/ x = i32 1.
Proof.
  intros [A B]. change ((val (i32 0) <=? val x)%Z = true) in A. change ((val x <=? val (i32 1))%Z = true) in B. apply Z.leb_le in A, B.
  assert (K0 : val (i32 0) = 0%Z) by (vm_compute; reflexivity). assert (K1 : val (i32 1) = 1%Z) by (vm_compute; reflexivity).
  assert (V : val x = 0%Z \/ val x = 1%Z) by lia. destruct V as [V|V]; [left|right]; apply val_inj; congruence.
Qed.
(** No value of [e] for [x] in [{0, 1}] equals [z]. *)
Lemma never_value dbg (e : expr int32) (z : int32) : on (seval None dbg [i32 0] e) (fun v => negb (o_eq v z)) = true -> on (seval None dbg [i32 1] e) (fun v => negb (o_eq v z)) = true ->
  ~ exists v, values None dbg [zi 0 1] e v /\ o_eq v z = true.
Proof.
  intros A B (v & (xs & Hx & Ev) & Eq). inversion Hx as [|? x ? ys H1 H2]; subst. inversion H2; subst. destruct (zero_or_one x H1) as [-> | ->].
  - pose proof (on_ok _ _ A v Ev) as K. cbv beta in K. change (negb (o_eq v z) = true) in K. rewrite Eq in K. discriminate K.
  - pose proof (on_ok _ _ B v Ev) as K. cbv beta in K. change (negb (o_eq v z) = true) in K. rewrite Eq in K. discriminate K.
Qed.
Definition x_minus_x : expr int32 := EBin BSub (EVar 0) (EVar 0).
Definition odd_square : expr int32 := EUn USquare (EBin BSub (EBin BMul (ELit (i32 2)) (EVar 0)) (ELit (i32 1))).
Lemma wider dbg (e : expr int32) : e = x_minus_x \/ e = odd_square -> eclean None dbg (map Iv [zi 0 1]) e /\ exists Z, ieval None dbg (map Iv [zi 0 1]) e = Ret (Iv Z) /\ ~ is_hull (values None dbg [zi 0 1] e) Z.
Proof.
  intros He. split.
  - apply (clean_ok (value_type_laws _ vt_int32)). destruct He as [-> | ->]; destruct dbg; vm_compute; reflexivity.
  - assert (G : exists a, ieval None dbg (map Iv [zi 0 1]) e = Ret a /\ match a with Iv Z => on (seval None dbg [i32 0] e) (fun v => negb (o_eq v (lo Z))) && on (seval None dbg [i32 1] e) (fun v => negb (o_eq v (lo Z))) | Sc _ => false end = true)
      by (apply ret_witness; destruct He as [-> | ->]; destruct dbg; vm_compute; reflexivity).
    destruct G as ([c|Z] & E & K); [discriminate|]. exists Z. split; [exact E|]. apply andb_prop in K as [K1 K2]. intros (_ & H & _). exact (never_value dbg e (lo Z) K1 K2 H).
Qed.
