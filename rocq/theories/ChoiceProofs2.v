(** Conditions that are reported as possible although they are never true: equality of expressions, and repeated variables. *)
From Coq Require Import Bool List Arith ZArith Lia.
From Verif Require Import Outcome SetModel Spec SetProofs SetProofs2 Num NumLaws IntervalModel IvlSpec IvlProofs IntNum IntProofs ValueTypes IvlWrap ConstrainModel CondSpec
  MathModel MathSpec LangModel LangSpec LangProofs2 IsoProofs4 UseSpec UseProofs3 ChoiceSpec.
Import ListNotations.

(** [2*x == 1] and [x < x]. *)
Definition even_odd : test int32 := QRel REq (EBin BMul (ELit (i32 2)) (EVar 0)) (ELit (i32 1)).
Definition below_itself : test int32 := QRel RLt (EVar 0) (EVar 0).
Lemma never_true dbg (t : test int32) : t = even_odd \/ t = below_itself ->
  tclean None dbg (map Iv [zi 0 1]) t /\ exists c, itest None dbg (map Iv [zi 0 1]) t = Ret c /\ member (cset c) true /\ ~ tvalues None dbg [zi 0 1] t true.
Proof.
  intros Ht. split; [apply (clean_ok (value_type_laws _ vt_int32)); destruct Ht as [-> | ->]; destruct dbg; vm_compute; reflexivity|].
  assert (G : exists c, itest None dbg (map Iv [zi 0 1]) t = Ret c /\ bcontains (cset c) true = true) by (apply ret_witness; destruct Ht as [-> | ->]; destruct dbg; vm_compute; reflexivity).
  destruct G as (c & E & K). exists c. split; [exact E|]. split; [now apply bmember_iff|]. intros (xs & Hx & Ev).
  inversion Hx as [|? x ? ys H1 H2]; subst. inversion H2; subst.
  assert (Q : on (stest None dbg [x] t) negb = true) by (destruct (zero_or_one x H1) as [-> | ->], Ht as [-> | ->]; destruct dbg; vm_compute; reflexivity).
  pose proof (on_ok _ _ Q true Ev) as F. discriminate F.
Qed.
