(** Proofs about [constrain] on a single comparison. *)
From Coq Require Import Bool List Arith.
From Verif Require Import Outcome SetModel Spec SetProofs SetProofs2 Num NumLaws IntervalModel IvlSpec IvlProofs ConstrainModel CondSpec ConstrainProofs ConstrainProofs2.
Import ListNotations.

Lemma expects_debug_true (dbg b : bool) : b = true -> expects_debug dbg b = Ret tt.
Proof. intros ->. now destruct dbg. Qed.

Section Leaf.
  Context {O : ordty} (HO : ord_laws O) (dbg : bool) (x : nat).
  Implicit Types (X Y Z : ivl O) (c : cond O) (l r : operand O) (a b : O).

  Lemma pred_below a (u : O) : o_lt a u = true -> exists p, o_pred u = Ret p /\ o_le p u = true /\ (forall z, o_lt z u = true -> o_le z p = true)
    /\ (o_disc O = true -> forall z, o_le z p = true -> o_lt z u = true) /\ (o_disc O = false -> p = u).
  Proof.
    intros H. destruct (o_disc O) eqn:D.
    - destruct (ol_pred_def _ HO D u a H) as [p Hp]. exists p. split; [exact Hp|]. pose proof (ol_pred _ HO D u p Hp) as Q.
      assert (Hpp : o_le p p = true) by (apply Q in H; clear - H HO; ord HO). split; [apply Q in Hpp; clear - Hpp HO; ord HO|].
      split; [intros z; apply Q|]. split; [intros _ z; apply Q|discriminate].
    - destruct (ol_cont _ HO D u) as [_ Hp]. exists u. split; [exact Hp|]. split; [clear - H HO; ord HO|]. split; [intros z Hz; clear - Hz HO; ord HO|].
      split; [discriminate|reflexivity].
  Qed.
  Lemma succ_above a (u : O) : o_lt u a = true -> exists p, o_succ u = Ret p /\ o_le u p = true /\ (forall z, o_lt u z = true -> o_le p z = true)
    /\ (o_disc O = true -> forall z, o_le p z = true -> o_lt u z = true) /\ (o_disc O = false -> p = u).
  Proof.
    intros H. destruct (o_disc O) eqn:D.
    - destruct (ol_succ_def _ HO D u a H) as [p Hp]. exists p. split; [exact Hp|]. pose proof (ol_succ _ HO D u p Hp) as Q.
      assert (Hpp : o_le p p = true) by (apply Q in H; clear - H HO; ord HO). split; [apply Q in Hpp; clear - Hpp HO; ord HO|].
      split; [intros z; apply Q|]. split; [intros _ z; apply Q|discriminate].
    - destruct (ol_cont _ HO D u) as [Hp _]. exists u. split; [exact Hp|]. split; [clear - H HO; ord HO|]. split; [intros z Hz; clear - Hz HO; ord HO|].
      split; [discriminate|reflexivity].
  Qed.

  (** What a comparison does with an element: the pair [a], [b] of elements of the operands satisfies the comparison. *)
  Definition kept (l r : operand O) X a b Z : Prop :=
    (op_is x l = true -> op_is x r = false -> el Z a) /\ (op_is x r = true -> op_is x l = false -> el Z b)
    /\ (op_is x l = true -> op_is x r = true -> el Z a \/ el Z b) /\ (op_is x l = false -> op_is x r = false -> Z = X).

  Ltac arith H := clear - HO H; ord HO.

  Lemma le_keep (v : bset) l r X a b (cons opt : bool) : member v true ->
    ael (op_arg l) a -> ael (op_arg r) b -> o_le a b = true -> (op_is x l = true -> el X a) -> (op_is x r = true -> el X b) ->
    exists Z, dconstrain dbg x X (CLe v l r) cons opt = Ret (Z, cons || (op_is x l || op_is x r)) /\ kept l r X a b Z.
  Proof.
    intros Hv [Ha1 Ha2] [Hb1 Hb2] Hab HXa HXb. apply bmember_iff in Hv. unfold kept. cbn [dconstrain]. rewrite Hv.
    destruct (op_is x l) eqn:El.
    - destruct (HXa eq_refl) as [X1 X2]. cbn [andb].
      rewrite expects_debug_true by (clear - HO X1 Hab Hb2; ord HO). cbn [bind].
      assert (K : o_le a (omin (hi X) (aupper (op_arg r))) = true) by (apply omin_glb; [exact X2|clear - HO Hab Hb2; ord HO]).
      rewrite (mk_proper HO) by (clear - HO X1 K; ord HO). cbn [bind]. eexists. split; [now rewrite orb_true_r|].
      assert (E : el (Ivl (lo X) (omin (hi X) (aupper (op_arg r)))) a) by (split; [exact X1|exact K]).
      split; [auto|split; [discriminate|split; [auto|discriminate]]].
    - cbn [andb negb orb expects bind]. destruct (op_is x r) eqn:Er.
      + destruct (HXb eq_refl) as [X1 X2].
        rewrite expects_debug_true by (clear - HO X2 Hab Ha1; ord HO). cbn [bind].
        assert (K : o_le (omax (alower (op_arg l)) (lo X)) b = true) by (apply omax_lub; [clear - HO Hab Ha1; ord HO|exact X1]).
        rewrite (mk_proper HO) by (clear - HO X2 K; ord HO). cbn [bind]. eexists. split; [now rewrite orb_true_r|].
        split; [discriminate|split; [intros _ _; split; [exact K|exact X2]|split; [discriminate|discriminate]]].
      + eexists. split; [now rewrite orb_false_r|]. split; [discriminate|split; [discriminate|split; [discriminate|reflexivity]]].
  Qed.

  Lemma lt_keep (v : bset) l r X a b (cons opt : bool) : member v true ->
    ael (op_arg l) a -> ael (op_arg r) b -> o_lt a b = true -> (op_is x l = true -> el X a) -> (op_is x r = true -> el X b) ->
    exists Z, dconstrain dbg x X (CLt v l r) cons opt = Ret (Z, cons || (op_is x l || op_is x r)) /\ kept l r X a b Z.
  Proof.
    intros Hv [Ha1 Ha2] [Hb1 Hb2] Hab HXa HXb. apply bmember_iff in Hv. unfold kept. cbn [dconstrain]. rewrite Hv.
    destruct (op_is x l) eqn:El.
    - destruct (HXa eq_refl) as [X1 X2]. cbn [andb].
      assert (Hu : o_lt a (aupper (op_arg r)) = true) by (clear - HO Hab Hb2; ord HO).
      rewrite expects_debug_true by (clear - HO X1 Hu; ord HO). cbn [bind].
      destruct (pred_below _ _ Hu) as (p & Ep & _ & Hp & _). rewrite Ep. cbn [bind].
      assert (K : o_le a (omin (hi X) p) = true) by (apply omin_glb; [exact X2|now apply Hp]).
      rewrite (mk_proper HO) by (clear - HO X1 K; ord HO). cbn [bind]. eexists. split; [now rewrite orb_true_r|].
      assert (E : el (Ivl (lo X) (omin (hi X) p)) a) by (split; [exact X1|exact K]).
      split; [auto|split; [discriminate|split; [auto|discriminate]]].
    - cbn [andb negb orb expects bind]. destruct (op_is x r) eqn:Er.
      + destruct (HXb eq_refl) as [X1 X2].
        assert (Hu : o_lt (alower (op_arg l)) b = true) by (clear - HO Hab Ha1; ord HO).
        rewrite expects_debug_true by (clear - HO X2 Hu; ord HO). cbn [bind].
        destruct (succ_above _ _ Hu) as (p & Ep & _ & Hp & _). rewrite Ep. cbn [bind].
        assert (K : o_le (omax p (lo X)) b = true) by (apply omax_lub; [now apply Hp|exact X1]).
        rewrite (mk_proper HO) by (clear - HO X2 K; ord HO). cbn [bind]. eexists. split; [now rewrite orb_true_r|].
        split; [discriminate|split; [intros _ _; split; [exact K|exact X2]|split; [discriminate|discriminate]]].
      + eexists. split; [now rewrite orb_false_r|]. split; [discriminate|split; [discriminate|split; [discriminate|reflexivity]]].
  Qed.

  Lemma eq_keep (v : bset) l r X a b (cons opt : bool) : member v true ->
    ael (op_arg l) a -> ael (op_arg r) b -> o_eq a b = true -> (op_is x l = true -> el X a) -> (op_is x r = true -> el X b) ->
    exists Z, dconstrain dbg x X (CEq v l r) cons opt = Ret (Z, cons || (op_is x l || op_is x r)) /\ kept l r X a b Z.
  Proof.
    intros Hv [Ha1 Ha2] [Hb1 Hb2] Hab _ _. apply bmember_iff in Hv. unfold kept. cbn [dconstrain]. rewrite Hv.
    destruct (op_is x l || op_is x r) eqn:Ei.
    - cbv zeta. rewrite expects_debug_true by (clear - HO Ha1 Ha2 Hb1 Hb2 Hab; ord HO). cbn [bind].
      assert (K1 : o_le (omax (alower (op_arg l)) (alower (op_arg r))) a = true) by (apply omax_lub; [exact Ha1|clear - HO Hab Hb1; ord HO]).
      assert (K2 : o_le a (omin (aupper (op_arg l)) (aupper (op_arg r))) = true) by (apply omin_glb; [exact Ha2|clear - HO Hab Hb2; ord HO]).
      rewrite (mk_proper HO) by (clear - HO K1 K2; ord HO). cbn [bind]. eexists. split; [now rewrite orb_true_r|].
      assert (E : el (Ivl (omax (alower (op_arg l)) (alower (op_arg r))) (omin (aupper (op_arg l)) (aupper (op_arg r)))) a) by (split; [exact K1|exact K2]).
      assert (E' : el (Ivl (omax (alower (op_arg l)) (alower (op_arg r))) (omin (aupper (op_arg l)) (aupper (op_arg r)))) b)
        by (split; cbn [lo hi]; [clear - HO K1 Hab; ord HO|clear - HO K2 Hab; ord HO]).
      split; [auto|split; [auto|split; [auto|]]]. intros F1 F2. rewrite F1, F2 in Ei. discriminate.
    - apply orb_false_iff in Ei. destruct Ei as [F1 F2]. rewrite F1, F2.
      eexists. split; [now rewrite orb_false_r|]. split; [discriminate|split; [discriminate|split; [discriminate|reflexivity]]].
  Qed.

  Lemma ne_keep (v : bset) l r X a b (cons opt : bool) : member v true ->
    ael (op_arg l) a -> ael (op_arg r) b -> negb (o_eq a b) = true -> (op_is x l = true -> el X a) -> (op_is x r = true -> el X b) ->
    exists Z, dconstrain dbg x X (CNe v l r) cons opt = Ret (Z, cons || (op_is x l || op_is x r)) /\ kept l r X a b Z.
  Proof.
    intros Hv [Ha1 Ha2] [Hb1 Hb2] Hab HXa HXb. apply bmember_iff in Hv. unfold kept. cbn [dconstrain]. rewrite Hv.
    destruct (op_is x l || op_is x r) eqn:Ei.
    2:{ apply orb_false_iff in Ei. destruct Ei as [F1 F2]. rewrite F1, F2.
      eexists. split; [now rewrite orb_false_r|]. split; [discriminate|split; [discriminate|split; [discriminate|reflexivity]]]. }
    cbv zeta.
    set (ll := alower (op_arg l)) in *. set (lh := aupper (op_arg l)) in *. set (rl := alower (op_arg r)) in *. set (rh := aupper (op_arg r)) in *.
    rewrite expects_debug_true.
    2:{ destruct (negb (o_eq ll rh)) eqn:E1; [reflexivity|]. destruct (negb (o_eq lh rl)) eqn:E2; [reflexivity|]. exfalso.
        clear - HO Ha1 Ha2 Hb1 Hb2 Hab E1 E2. ord HO. }
    cbn [bind].
    assert (Keep : exists Z, Ret (X, true) = Ret (Z, cons || true) /\
       (op_is x l = true -> op_is x r = false -> el Z a) /\ (op_is x r = true -> op_is x l = false -> el Z b)
       /\ (op_is x l = true -> op_is x r = true -> el Z a \/ el Z b) /\ (op_is x l = false -> op_is x r = false -> Z = X)).
    { eexists. split; [now rewrite orb_true_r|]. split; [auto|split; [auto|split; [auto|reflexivity]]]. }
    destruct (o_disc O) eqn:D; [|exact Keep].
    destruct (op_is x l && negb (o_eq ll lh) && o_eq rl rh && o_eq ll rl) eqn:C1.
    { rewrite !andb_true_iff in C1. destruct C1 as (((L & N1) & N2) & N3).
      assert (Ha : o_lt ll a = true) by (clear - HO Ha1 Hb1 Hb2 Hab N2 N3; ord HO).
      destruct (succ_above _ _ Ha) as (p & Ep & _ & Hp & _). rewrite Ep. cbn [bind]. specialize (Hp a Ha).
      rewrite (mk_proper HO) by (clear - HO Hp Ha2; ord HO). cbn [bind]. eexists. split; [now rewrite orb_true_r|].
      assert (E : el (Ivl p lh) a) by (split; [exact Hp|exact Ha2]).
      split; [auto|split; [intros _ F; rewrite F in L; discriminate|split; [auto|intros F; rewrite F in L; discriminate]]]. }
    destruct (op_is x l && negb (o_eq ll lh) && o_eq rl rh && o_eq lh rl) eqn:C2.
    { rewrite !andb_true_iff in C2. destruct C2 as (((L & N1) & N2) & N3).
      assert (Ha : o_lt a lh = true) by (clear - HO Ha2 Hb1 Hb2 Hab N2 N3; ord HO).
      destruct (pred_below _ _ Ha) as (p & Ep & _ & Hp & _). rewrite Ep. cbn [bind]. specialize (Hp a Ha).
      rewrite (mk_proper HO) by (clear - HO Hp Ha1; ord HO). cbn [bind]. eexists. split; [now rewrite orb_true_r|].
      assert (E : el (Ivl ll p) a) by (split; [exact Ha1|exact Hp]).
      split; [auto|split; [intros _ F; rewrite F in L; discriminate|split; [auto|intros F; rewrite F in L; discriminate]]]. }
    destruct (op_is x r && negb (o_eq rl rh) && o_eq ll lh && o_eq rl ll) eqn:C3.
    { rewrite !andb_true_iff in C3. destruct C3 as (((L & N1) & N2) & N3).
      assert (Hb : o_lt rl b = true) by (clear - HO Ha1 Ha2 Hb1 Hab N2 N3; ord HO).
      destruct (succ_above _ _ Hb) as (p & Ep & _ & Hp & _). rewrite Ep. cbn [bind]. specialize (Hp b Hb).
      rewrite (mk_proper HO) by (clear - HO Hp Hb2; ord HO). cbn [bind]. eexists. split; [now rewrite orb_true_r|].
      assert (E : el (Ivl p rh) b) by (split; [exact Hp|exact Hb2]).
      split; [intros _ F; rewrite F in L; discriminate|split; [auto|split; [auto|intros _ F; rewrite F in L; discriminate]]]. }
    destruct (op_is x r && negb (o_eq rl rh) && o_eq ll lh && o_eq rh ll) eqn:C4.
    { rewrite !andb_true_iff in C4. destruct C4 as (((L & N1) & N2) & N3).
      assert (Hb : o_lt b rh = true) by (clear - HO Ha1 Ha2 Hb2 Hab N2 N3; ord HO).
      destruct (pred_below _ _ Hb) as (p & Ep & _ & Hp & _). rewrite Ep. cbn [bind]. specialize (Hp b Hb).
      rewrite (mk_proper HO) by (clear - HO Hp Hb1; ord HO). cbn [bind]. eexists. split; [now rewrite orb_true_r|].
      assert (E : el (Ivl rl p) b) by (split; [exact Hb1|exact Hp]).
      split; [intros _ F; rewrite F in L; discriminate|split; [auto|split; [auto|intros _ F; rewrite F in L; discriminate]]]. }
    exact Keep.
  Qed.

End Leaf.
