(** Conditions and [constrain] of narrower operands. *)
From Coq Require Import Bool List Arith.
From Verif Require Import Outcome SetModel Spec SetProofs SetProofs2 Num NumLaws IntervalModel IvlSpec IvlProofs ConstrainModel CondSpec ConstrainProofs ConstrainProofs2 ConstrainProofs3 ConstrainProofs4 ConstrainProofs5.
Import ListNotations.

Section Iso.
  Context {O : ordty} (HO : ord_laws O) (dbg : bool).
  Implicit Types (X Y Z : ivl O) (c d : cond O) (o l r : operand O) (a b p q s : O).

  (** Bounds: also of the interval that has no elements. *)
  Definition rle Z Z' : Prop := o_le (lo Z') (lo Z) = true /\ o_le (hi Z) (hi Z') = true.
  Lemma rle_subset Z Z' : rle Z Z' -> subset Z Z'.
  Proof. intros [A B] v [C D]. split; [clear - HO A C; ord HO|clear - HO B D; ord HO]. Qed.
  Lemma subset_rle Z Z' : proper Z -> subset Z Z' -> rle Z Z'.
  Proof. intros P S. destruct (S _ (el_lower HO Z P)) as [A _], (S _ (el_upper HO Z P)) as [_ B]. split; assumption. Qed.
  Lemma rle_proper Z Z' : proper Z -> rle Z Z' -> proper Z'.
  Proof. unfold proper. intros P [A B]. clear - HO P A B. ord HO. Qed.
  Lemma rle_trans Z Z' Z'' : rle Z Z' -> rle Z' Z'' -> rle Z Z''.
  Proof. intros [A B] [C D]. split; [clear - HO A C; ord HO|clear - HO B D; ord HO]. Qed.
  Lemma rle_refl Z : ok (lo Z) -> ok (hi Z) -> rle Z Z. Proof. intros A B. split; assumption. Qed.
  Lemma omin_le (x y x' y' : O) : o_le x x' = true -> o_le y y' = true -> o_le (omin x y) (omin x' y') = true.
  Proof. unfold omin. intros A B. destruct (o_lt y x) eqn:E, (o_lt y' x') eqn:E'; ord HO. Qed.
  Lemma omax_le (x y x' y' : O) : o_le x x' = true -> o_le y y' = true -> o_le (omax x y) (omax x' y') = true.
  Proof. unfold omax. intros A B. destruct (o_lt x y) eqn:E, (o_lt x' y') eqn:E'; ord HO. Qed.

  Definition ale (x x' : arg O) : Prop := match x, x' with Sc v, Sc v' => v = v' | Iv X, Iv X' => subset X X' | _, _ => False end.
  Definition ole o o' : Prop := match o, o' with OpId i X, OpId j X' => i = j /\ subset X X' | OpVal x, OpVal x' => ale x x' | _, _ => False end.
  Definition ble (s s' : bset) : Prop := forall t : bool, member s t -> member s' t.
  Fixpoint cle c c' : Prop :=
    match c, c' with
    | CBool b, CBool b' => b = b'
    | CSet s, CSet s' => ble s s'
    | CLe v l r, CLe v' l' r' | CLt v l r, CLt v' l' r' | CEq v l r, CEq v' l' r' | CNe v l r, CNe v' l' r' => ble v v' /\ ole l l' /\ ole r r'
    | CAnd v c d, CAnd v' c' d' | COr v c d, COr v' c' d' => ble v v' /\ cle c c' /\ cle d d'
    | _, _ => False
    end.

  Lemma ale_sub (x x' : arg O) : ale x x' -> asubset x x'.
  Proof. destruct x, x'; intros L v H; try destruct L; [exact H|exact (L v H)]. Qed.
  Lemma ale_bounds (x x' : arg O) : aproper x -> ale x x' -> o_le (alower x') (alower x) = true /\ o_le (aupper x) (aupper x') = true.
  Proof.
    intros P L. pose proof (ale_sub x x' L) as S. destruct (S _ (ael_lower HO x P)) as [A _].
    assert (U : ael x (aupper x)) by (unfold aproper in P; split; [exact P|clear - HO P; ord HO]). destruct (S _ U) as [_ B]. auto.
  Qed.
  Lemma ole_ale o o' : ole o o' -> ale (op_arg o) (op_arg o').
  Proof. destruct o, o'; cbn; tauto. Qed.
  Lemma ole_is x o o' : ole o o' -> op_is x o = op_is x o'.
  Proof. destruct o, o'; cbn; try tauto. now intros [<- _]. Qed.
  Lemma cle_set c c' : cle c c' -> ble (cset c) (cset c').
  Proof. destruct c, c'; cbn; try tauto. intros <-. intros t H. exact H. Qed.
  Lemma cle_cond c c' : cle c c' -> is_cond c = is_cond c'.
  Proof. destruct c, c'; cbn; tauto. Qed.

  Lemma c_not_cle c : forall c' n n', wfc c -> wfc c' -> cle c c' -> c_not dbg c = Ret n -> c_not dbg c' = Ret n' -> cle n n'.
  Proof.
    assert (B : forall c c' n n', wfc c -> wfc c' -> cle c c' -> c_not dbg c = Ret n -> c_not dbg c' = Ret n' -> ble (cset n) (cset n')).
    { intros c0 c' n n' W W' L E E'. destruct (c_not_ok HO dbg c0 W) as (m & Em & _ & H), (c_not_ok HO dbg c' W') as (m' & Em' & _ & H').
      rewrite E in Em. injection Em as <-. rewrite E' in Em'. injection Em' as <-. intros t Ht. apply H'. apply (cle_set c0 c' L). now apply H. }
    induction c as [v|s|v l r|v l r|v l r|v l r|v c IHc d IHd|v c IHc d IHd]; intros c' n n' W W' L E E'; pose proof (B _ _ _ _ W W' L E E') as Bn;
      destruct c' as [v'|s'|v' l' r'|v' l' r'|v' l' r'|v' l' r'|v' c' d'|v' c' d']; try destruct L; cbn [c_not] in E, E'.
    - injection E as <-. injection E' as <-. reflexivity.
    - apply bind_inv in E as (m & Em & E). injection E as <-. apply bind_inv in E' as (m' & Em' & E'). injection E' as <-. exact Bn.
    - apply bind_inv in E as (m & Em & E). injection E as <-. apply bind_inv in E' as (m' & Em' & E'). injection E' as <-. cbn in *. tauto.
    - apply bind_inv in E as (m & Em & E). injection E as <-. apply bind_inv in E' as (m' & Em' & E'). injection E' as <-. cbn in *. tauto.
    - apply bind_inv in E as (m & Em & E). injection E as <-. apply bind_inv in E' as (m' & Em' & E'). injection E' as <-. cbn in *. tauto.
    - apply bind_inv in E as (m & Em & E). injection E as <-. apply bind_inv in E' as (m' & Em' & E'). injection E' as <-. cbn in *. tauto.
    - destruct W as (W1 & W2 & _), W' as (W1' & W2' & _). match goal with K : cle c c' /\ cle d d' |- _ => destruct K as [L1 L2] end.
      rewrite <- (cle_cond _ _ L1), <- (cle_cond _ _ L2) in E'.
      apply bind_inv in E as (m & Em & E). apply bind_inv in E' as (m' & Em' & E').
      destruct (is_cond c && is_cond d); [|injection E as <-; injection E' as <-; exact Bn].
      apply bind_inv in E as (n1 & E1 & E). apply bind_inv in E as (n2 & E2 & E). injection E as <-.
      apply bind_inv in E' as (n1' & E1' & E'). apply bind_inv in E' as (n2' & E2' & E'). injection E' as <-.
      split; [exact Bn|]. split; [exact (IHc _ _ _ W1 W1' L1 E1 E1')|exact (IHd _ _ _ W2 W2' L2 E2 E2')].
    - destruct W as (W1 & W2 & _), W' as (W1' & W2' & _). match goal with K : cle c c' /\ cle d d' |- _ => destruct K as [L1 L2] end.
      rewrite <- (cle_cond _ _ L1), <- (cle_cond _ _ L2) in E'.
      apply bind_inv in E as (m & Em & E). apply bind_inv in E' as (m' & Em' & E').
      destruct (is_cond c && is_cond d); [|injection E as <-; injection E' as <-; exact Bn].
      apply bind_inv in E as (n1 & E1 & E). apply bind_inv in E as (n2 & E2 & E). injection E as <-.
      apply bind_inv in E' as (n1' & E1' & E'). apply bind_inv in E' as (n2' & E2' & E'). injection E' as <-.
      split; [exact Bn|]. split; [exact (IHc _ _ _ W1 W1' L1 E1 E1')|exact (IHd _ _ _ W2 W2' L2 E2 E2')].
  Qed.
  Lemma ext2_mono (h : bool -> bool -> bool) (P Q P' Q' : bool -> Prop) (t : bool) : (forall e : bool, P e -> P' e) -> (forall e : bool, Q e -> Q' e) -> ext2 h P Q t -> ext2 h P' Q' t.
  Proof. intros A B (u & v & Hu & Hv & E). exists u, v. auto. Qed.
  Lemma c_and_cle c d c' d' : wfc c -> wfc d -> wfc c' -> wfc d' -> cle c c' -> cle d d' -> cle (c_and c d) (c_and c' d').
  Proof.
    intros W1 W2 W1' W2' L1 L2.
    assert (B : ble (cset (c_and c d)) (cset (c_and c' d'))).
    { intros t Ht. apply (c_and_ok HO c' d' W1' W2'). apply (c_and_ok HO c d W1 W2) in Ht. exact (ext2_mono _ _ _ _ _ t (cle_set c c' L1) (cle_set d d' L2) Ht). }
    unfold c_and in *. rewrite <- (cle_cond _ _ L1), <- (cle_cond _ _ L2) in *. destruct (is_cond c || is_cond d) eqn:E; [split; auto|].
    destruct c; try discriminate E; destruct c'; try destruct L1; destruct d; try discriminate E; destruct d'; try destruct L2; try exact B. cbn in *. now subst.
  Qed.
  Lemma c_or_cle c d c' d' : wfc c -> wfc d -> wfc c' -> wfc d' -> cle c c' -> cle d d' -> cle (c_or c d) (c_or c' d').
  Proof.
    intros W1 W2 W1' W2' L1 L2.
    assert (B : ble (cset (c_or c d)) (cset (c_or c' d'))).
    { intros t Ht. apply (c_or_ok HO c' d' W1' W2'). apply (c_or_ok HO c d W1 W2) in Ht. exact (ext2_mono _ _ _ _ _ t (cle_set c c' L1) (cle_set d d' L2) Ht). }
    unfold c_or in *. rewrite <- (cle_cond _ _ L1), <- (cle_cond _ _ L2) in *. destruct (is_cond c || is_cond d) eqn:E; [split; auto|].
    destruct c; try discriminate E; destruct c'; try destruct L1; destruct d; try discriminate E; destruct d'; try destruct L2; try exact B. cbn in *. now subst.
  Qed.

  (** ** [constrain] by conjunctions *)
  Fixpoint cconj c : Prop := match c with CAnd _ c d => cconj c /\ cconj d | COr _ _ _ => False | _ => True end.
  Context (x : nat).
  Lemma mk_rle p q p' q' Z Z' : o_le p' p = true -> o_le q q' = true -> mk p q = Ret Z -> mk p' q' = Ret Z' -> rle Z Z'.
  Proof. intros A B E E'. apply mk_iff in E as [-> _]. apply mk_iff in E' as [-> _]. split; assumption. Qed.
  Lemma debug_inv (t : bool) {A : Type} (k : unit -> outcome A) z : bind (expects_debug dbg t) k = Ret z -> k tt = Ret z.
  Proof. intros E. apply bind_inv in E as ([] & _ & E). exact E. Qed.
  Lemma pred_mono a u u' p p' : o_lt a u = true -> o_le u u' = true -> o_pred u = Ret p -> o_pred u' = Ret p' -> o_le p p' = true.
  Proof.
    intros L S E E'. assert (L' : o_lt a u' = true) by (clear - HO L S; ord HO).
    destruct (pred_below HO a u L) as (q & Eq & Hq & _ & D & C). rewrite E in Eq. injection Eq as <-.
    destruct (pred_below HO a u' L') as (q' & Eq' & Hq' & B & _ & C'). rewrite E' in Eq'. injection Eq' as <-.
    destruct (o_disc O).
    - apply B. pose proof (D eq_refl p) as K. assert (Pp : o_le p p = true) by (clear - HO Hq; ord HO). specialize (K Pp). clear - HO K S. ord HO.
    - rewrite (C eq_refl), (C' eq_refl). exact S.
  Qed.
  Lemma succ_mono a u u' p p' : o_lt u a = true -> o_le u' u = true -> o_succ u = Ret p -> o_succ u' = Ret p' -> o_le p' p = true.
  Proof.
    intros L S E E'. assert (L' : o_lt u' a = true) by (clear - HO L S; ord HO).
    destruct (succ_above HO a u L) as (q & Eq & Hq & _ & D & C). rewrite E in Eq. injection Eq as <-.
    destruct (succ_above HO a u' L') as (q' & Eq' & Hq' & B & _ & C'). rewrite E' in Eq'. injection Eq' as <-.
    destruct (o_disc O).
    - apply B. pose proof (D eq_refl p) as K. assert (Pp : o_le p p = true) by (clear - HO Hq; ord HO). specialize (K Pp). clear - HO K S. ord HO.
    - rewrite (C eq_refl), (C' eq_refl). exact S.
  Qed.

  Lemma lt_pair v l r : rel_exact o_lt v (op_arg l) (op_arg r) -> member v true -> o_lt (alower (op_arg l)) (aupper (op_arg r)) = true.
  Proof. intros [_ H] K. apply H in K. destruct K as (a & b & [A _] & [_ B] & E). clear - HO A B E. ord HO. Qed.

  Section Leaves.
    Context (X X' : ivl O) (HX' : rle X X') (l r l' r' : operand O) (v v' : bset) (cons cons' opt opt' : bool) (Z Z' : ivl O) (k k' : bool).
    Context (Hl : aproper (op_arg l)) (Hr : aproper (op_arg r)) (Ll : ole l l') (Lr : ole r r') (Vt : member v true) (Vt' : member v' true).
    Let Bl := ale_bounds _ _ Hl (ole_ale _ _ Ll).
    Let Br := ale_bounds _ _ Hr (ole_ale _ _ Lr).
    Let Vb : bcontains v true = true := proj1 (bmember_iff v true) Vt.
    Let Vb' : bcontains v' true = true := proj1 (bmember_iff v' true) Vt'.
    Lemma le_iso : dconstrain dbg x X (CLe v l r) cons opt = Ret (Z, k) -> dconstrain dbg x X' (CLe v' l' r') cons' opt' = Ret (Z', k') -> rle Z Z'.
    Proof.
      intros E E'. cbn [dconstrain] in E, E'. rewrite <- (ole_is x l l' Ll), <- (ole_is x r r' Lr), Vb' in E'. rewrite Vb in E. destruct HX' as [A B], Bl as [C D], Br as [F G].
      destruct (op_is x l); cbn [andb negb orb expects bind] in E, E'; [|destruct (op_is x r)].
      - apply debug_inv in E, E'. apply bind_inv in E as (z & E & K), E' as (z' & E' & K'). injection K as <- _. injection K' as <- _.
        refine (mk_rle _ _ _ _ _ _ A _ E E'). now apply omin_le.
      - apply debug_inv in E, E'. apply bind_inv in E as (z & E & K), E' as (z' & E' & K'). injection K as <- _. injection K' as <- _.
        refine (mk_rle _ _ _ _ _ _ _ B E E'). now apply omax_le.
      - injection E as <- _. injection E' as <- _. exact HX'.
    Qed.
    Lemma lt_iso : rel_exact o_lt v (op_arg l) (op_arg r) ->
      dconstrain dbg x X (CLt v l r) cons opt = Ret (Z, k) -> dconstrain dbg x X' (CLt v' l' r') cons' opt' = Ret (Z', k') -> rle Z Z'.
    Proof.
      intros W E E'. pose proof (lt_pair v l r W Vt) as P. cbn [dconstrain] in E, E'. rewrite <- (ole_is x l l' Ll), <- (ole_is x r r' Lr), Vb' in E'. rewrite Vb in E.
      destruct HX' as [A B], Bl as [C D], Br as [F G].
      destruct (op_is x l); cbn [andb negb orb expects bind] in E, E'; [|destruct (op_is x r)].
      - apply debug_inv in E, E'. apply bind_inv in E as (p & Ep & E), E' as (p' & Ep' & E'). apply bind_inv in E as (z & E & K), E' as (z' & E' & K'). injection K as <- _. injection K' as <- _.
        refine (mk_rle _ _ _ _ _ _ A _ E E'). apply omin_le; [exact B|]. exact (pred_mono _ _ _ _ _ P G Ep Ep').
      - apply debug_inv in E, E'. apply bind_inv in E as (p & Ep & E), E' as (p' & Ep' & E'). apply bind_inv in E as (z & E & K), E' as (z' & E' & K'). injection K as <- _. injection K' as <- _.
        refine (mk_rle _ _ _ _ _ _ _ B E E'). apply omax_le; [|exact A]. exact (succ_mono _ _ _ _ _ P C Ep Ep').
      - injection E as <- _. injection E' as <- _. exact HX'.
    Qed.
    Lemma eq_iso : dconstrain dbg x X (CEq v l r) cons opt = Ret (Z, k) -> dconstrain dbg x X' (CEq v' l' r') cons' opt' = Ret (Z', k') -> rle Z Z'.
    Proof.
      intros E E'. cbn [dconstrain] in E, E'. rewrite <- (ole_is x l l' Ll), <- (ole_is x r r' Lr), Vb' in E'. rewrite Vb in E. destruct HX' as [A B], Bl as [C D], Br as [F G].
      destruct (op_is x l || op_is x r).
      - cbv zeta in E, E'. apply debug_inv in E, E'. apply bind_inv in E as (z & E & K), E' as (z' & E' & K'). injection K as <- _. injection K' as <- _.
        refine (mk_rle _ _ _ _ _ _ _ _ E E'); [now apply omax_le|now apply omin_le].
      - injection E as <- _. injection E' as <- _. exact HX'.
    Qed.
  End Leaves.

  (** [!=] cuts off a bound if the other operand is that number only. *)
  Definition cut (o o' : operand O) (Z : ivl O) : Prop :=
    o_eq (alower (op_arg o')) (aupper (op_arg o')) = true ->
    (o_eq (alower (op_arg o)) (alower (op_arg o')) = true -> o_lt (alower (op_arg o')) (lo Z) = true)
    /\ (o_eq (aupper (op_arg o)) (alower (op_arg o')) = true -> o_lt (hi Z) (alower (op_arg o')) = true).
  Lemma ne_cut (v : bset) l r X Z (cons opt k : bool) : o_disc O = true -> aproper (op_arg l) -> aproper (op_arg r) -> rel_exact (fun a b => negb (o_eq a b)) v (op_arg l) (op_arg r) ->
    member v true -> dconstrain dbg x X (CNe v l r) cons opt = Ret (Z, k) ->
    (op_is x l = true -> cut l r Z) /\ (op_is x l = false -> op_is x r = true -> cut r l Z).
  Proof.
    intros D Pl Pr [_ W] Vt E. apply W in Vt as Hv. destruct Hv as (a & b & [A1 A2] & [B1 B2] & Nab). apply bmember_iff in Vt. cbn [dconstrain] in E. rewrite Vt in E.
    assert (S : forall u p w : O, o_lt u w = true -> o_succ u = Ret p -> o_lt u p = true).
    { intros u p w L Ep. apply (ol_succ _ HO D u p Ep). apply (ol_succ _ HO D u p Ep) in L. clear - HO L. ord HO. }
    assert (T : forall u p w : O, o_lt w u = true -> o_pred u = Ret p -> o_lt p u = true).
    { intros u p w L Ep. apply (ol_pred _ HO D u p Ep). apply (ol_pred _ HO D u p Ep) in L. clear - HO L. ord HO. }
    unfold aproper in Pl, Pr. unfold cut. split.
    - intros Il. rewrite Il in E. cbn [orb andb] in E. cbv zeta in E. apply debug_inv in E. rewrite D in E. intros Er.
      assert (Nl : o_lt (alower (op_arg l)) (aupper (op_arg l)) = true \/ o_eq (alower (op_arg l)) (aupper (op_arg l)) = true) by (destruct (o_lt (alower (op_arg l)) (aupper (op_arg l))) eqn:Q; [now left|right; clear - HO Pl Q; ord HO]).
      destruct Nl as [Nl|Nl].
      + assert (Nl' : negb (o_eq (alower (op_arg l)) (aupper (op_arg l))) = true) by (clear - HO Nl; ord HO). rewrite Nl', Er in E. cbn [andb] in E.
        destruct (o_eq (alower (op_arg l)) (alower (op_arg r))) eqn:C1; [|destruct (o_eq (aupper (op_arg l)) (alower (op_arg r))) eqn:C2].
        * apply bind_inv in E as (p & Ep & E). apply bind_inv in E as (z & E & K). injection K as <- _. apply mk_iff in E as [-> _]. cbn.
          split; [intros _|intros C2; exfalso; clear - HO Nl C1 C2; ord HO]. pose proof (S _ _ _ Nl Ep) as Q. clear - HO Q C1. ord HO.
        * apply bind_inv in E as (p & Ep & E). apply bind_inv in E as (z & E & K). injection K as <- _. apply mk_iff in E as [-> _]. cbn.
          split; [discriminate|intros _]. pose proof (T _ _ _ Nl Ep) as Q. clear - HO Q C2. ord HO.
        * split; discriminate.
      + split; intros C; exfalso; clear - HO A1 A2 B1 B2 Nab Nl Er C; ord HO.
    - intros Il Ir. rewrite Il, Ir in E. cbn [orb andb] in E. cbv zeta in E. apply debug_inv in E. rewrite D in E. intros Er.
      assert (Nl : o_lt (alower (op_arg r)) (aupper (op_arg r)) = true \/ o_eq (alower (op_arg r)) (aupper (op_arg r)) = true) by (destruct (o_lt (alower (op_arg r)) (aupper (op_arg r))) eqn:Q; [now left|right; clear - HO Pr Q; ord HO]).
      destruct Nl as [Nl|Nl].
      + assert (Nl' : negb (o_eq (alower (op_arg r)) (aupper (op_arg r))) = true) by (clear - HO Nl; ord HO). rewrite Nl', Er in E. cbn [andb] in E.
        destruct (o_eq (alower (op_arg r)) (alower (op_arg l))) eqn:C1; [|destruct (o_eq (aupper (op_arg r)) (alower (op_arg l))) eqn:C2].
        * apply bind_inv in E as (p & Ep & E). apply bind_inv in E as (z & E & K). injection K as <- _. apply mk_iff in E as [-> _]. cbn.
          split; [intros _|intros C2; exfalso; clear - HO Nl C1 C2; ord HO]. pose proof (S _ _ _ Nl Ep) as Q. clear - HO Q C1. ord HO.
        * apply bind_inv in E as (p & Ep & E). apply bind_inv in E as (z & E & K). injection K as <- _. apply mk_iff in E as [-> _]. cbn.
          split; [discriminate|intros _]. pose proof (T _ _ _ Nl Ep) as Q. clear - HO Q C2. ord HO.
        * split; discriminate.
      + split; intros C; exfalso; clear - HO A1 A2 B1 B2 Nab Nl Er C; ord HO.
  Qed.
  (** The result of the wider run, in the same terms. *)
  Lemma ne_shape (v : bset) l r X Z (cons opt k : bool) : o_disc O = true -> member v true -> proper X -> (op_is x l = true -> op_arg l = Iv X) -> (op_is x r = true -> op_arg r = Iv X) ->
    dconstrain dbg x X (CNe v l r) cons opt = Ret (Z, k) ->
    Z = X \/ exists o o', op_is x o = true /\ (o = l /\ o' = r \/ op_is x l = false /\ o = r /\ o' = l) /\ o_eq (alower (op_arg o')) (aupper (op_arg o')) = true
      /\ ((exists p, o_eq (lo X) (alower (op_arg o')) = true /\ o_succ (lo X) = Ret p /\ Z = Ivl p (hi X))
          \/ (exists p, o_eq (hi X) (alower (op_arg o')) = true /\ o_pred (hi X) = Ret p /\ Z = Ivl (lo X) p)).
  Proof.
    intros D Vt PX Ol Or E. apply bmember_iff in Vt. cbn [dconstrain] in E. rewrite Vt in E. destruct (op_is x l) eqn:Il; cbn [orb andb] in E; [|destruct (op_is x r) eqn:Ir; cbn [andb] in E].
    - cbv zeta in E. apply debug_inv in E. rewrite D in E.
      destruct (op_is x r) eqn:Ir; cbn [andb] in E.
      + rewrite (Ol eq_refl), (Or eq_refl) in E. cbn [alower aupper] in E.
        assert (Q : negb (o_eq (lo X) (hi X)) && o_eq (lo X) (hi X) = false) by (destruct (o_eq (lo X) (hi X)); reflexivity). rewrite Q in E. cbn [andb] in E. injection E as <- _. now left.
      + rewrite (Ol eq_refl) in E. cbn [alower aupper] in E.
        destruct (negb (o_eq (lo X) (hi X))) eqn:N; cbn [andb] in E; [|injection E as <- _; now left].
        destruct (o_eq (alower (op_arg r)) (aupper (op_arg r))) eqn:Er; cbn [andb] in E; [|injection E as <- _; now left].
        destruct (o_eq (lo X) (alower (op_arg r))) eqn:C1; [|destruct (o_eq (hi X) (alower (op_arg r))) eqn:C2; [|injection E as <- _; now left]]; right; exists l, r; (split; [exact Il|]);
          (split; [left; split; reflexivity|]); (split; [exact Er|]);
          apply bind_inv in E as (p & Ep & E); apply bind_inv in E as (z & E & K); injection K as <- _; apply mk_iff in E as [-> _]; [left|right]; eauto.
    - cbv zeta in E. apply debug_inv in E. rewrite D in E. rewrite (Or eq_refl) in E. cbn [alower aupper] in E.
        destruct (negb (o_eq (lo X) (hi X))) eqn:N; cbn [andb] in E; [|injection E as <- _; now left].
        destruct (o_eq (alower (op_arg l)) (aupper (op_arg l))) eqn:Er; cbn [andb] in E; [|injection E as <- _; now left].
        destruct (o_eq (lo X) (alower (op_arg l))) eqn:C1; [|destruct (o_eq (hi X) (alower (op_arg l))) eqn:C2; [|injection E as <- _; now left]]; right; exists r, l; (split; [exact Ir|]);
          (split; [right; auto|]); (split; [exact Er|]);
          apply bind_inv in E as (p & Ep & E); apply bind_inv in E as (z & E & K); injection K as <- _; apply mk_iff in E as [-> _]; [left|right]; eauto.
    - injection E as <- _. now left.
  Qed.
  Lemma ne_iso (v : bset) l r (v' : bset) l' r' X X' Z Z' (cons opt k cons' opt' k' : bool) : wfc (CNe v l r) -> proper X -> rle X X' -> ole l l' -> ole r r' -> member v true -> member v' true ->
    (op_is x l = true -> op_arg l = Iv X) -> (op_is x r = true -> op_arg r = Iv X) -> (op_is x l' = true -> op_arg l' = Iv X') -> (op_is x r' = true -> op_arg r' = Iv X') ->
    dconstrain dbg x X (CNe v l r) cons opt = Ret (Z, k) -> dconstrain dbg x X' (CNe v' l' r') cons' opt' = Ret (Z', k') -> rle Z Z'.
  Proof.
    intros W PX S Ll Lr Vt Vt' Ol Or Ol' Or' E E'. pose proof W as (Pl & Pr & We).
    assert (Wn : within Z X) by exact (dc_within HO dbg x (CNe v l r) X cons opt Z k W PX (conj Ol Or) E).
    destruct Wn as (PZ & A & B). assert (G : rle Z X) by (split; assumption). assert (G' : rle Z X') by exact (rle_trans _ _ _ G S).
    destruct (o_disc O) eqn:D.
    2: { cbn [dconstrain] in E'. rewrite D in E'. apply bmember_iff in Vt'. rewrite Vt' in E'. destruct (op_is x l' || op_is x r'); [cbv zeta in E'; apply debug_inv in E'|]; injection E' as <- _; exact G'. }
    destruct (ne_shape v' l' r' X' Z' cons' opt' k' D Vt' (rle_proper X X' PX S) Ol' Or' E') as [->|(o & o' & Io & Ho & Pt & C)]; [exact G'|].
    destruct (ne_cut v l r X Z cons opt k D Pl Pr We Vt E) as [K1 K2].
    assert (Q : exists q q' : operand O, op_arg q = Iv X /\ aproper (op_arg q') /\ ole q' o' /\ cut q q' Z).
    { destruct Ho as [[-> ->]|(N & -> & ->)].
      - rewrite <- (ole_is x l l' Ll) in Io. exists l, r. split; [exact (Ol Io)|]. split; [exact Pr|]. split; [exact Lr|]. exact (K1 Io).
      - rewrite <- (ole_is x l l' Ll) in N. rewrite <- (ole_is x r r' Lr) in Io. exists r, l. split; [exact (Or Io)|]. split; [exact Pl|]. split; [exact Ll|]. exact (K2 N Io). }
    destruct Q as (q & q' & Eq & Pq' & Lq & Cu). unfold cut in Cu. rewrite Eq in Cu. cbn [alower aupper] in Cu.
    destruct (ale_bounds _ _ Pq' (ole_ale _ _ Lq)) as [F1 F2]. unfold aproper in Pq'.
    assert (Pt' : o_eq (alower (op_arg q')) (aupper (op_arg q')) = true) by (clear - HO Pt F1 F2 Pq'; ord HO). specialize (Cu Pt'). destruct Cu as [Cl Ch].
    assert (Same : o_eq (alower (op_arg q')) (alower (op_arg o')) = true) by (clear - HO Pt F1 F2 Pq'; ord HO). destruct S as [S1 S2], G' as [G1 G2].
    destruct C as [(p & C & Ep & ->)|(p & C & Ep & ->)]; split; cbn; try assumption.
    - apply (ol_succ _ HO D _ p Ep). destruct (o_eq (lo X) (alower (op_arg q'))) eqn:J.
      + specialize (Cl eq_refl). clear - HO Cl C Same. ord HO.
      + clear - HO J A S1 C Same. ord HO.
    - apply (ol_pred _ HO D _ p Ep). destruct (o_eq (hi X) (alower (op_arg q'))) eqn:J.
      + specialize (Ch eq_refl). clear - HO Ch C Same. ord HO.
      + clear - HO J B S2 C Same. ord HO.
  Qed.

  Definition as_X X o : Prop := op_is x o = true -> op_arg o = Iv X.
  Lemma conj_true (v : bset) c d : wfc (CAnd v c d) -> member v true -> member (cset c) true /\ member (cset d) true.
  Proof. intros (_ & _ & _ & H) K. apply H in K as (a & b & A & B & E). apply andb_true_iff in E as [-> ->]. auto. Qed.
  Lemma dc_iso c : forall c' X X' Z Z' (cons opt k cons' opt' k' : bool), cle c c' -> wfc c -> wfc c' -> cconj c -> proper X -> subset X X' ->
    c_ops (as_X X) c -> c_ops (as_X X') c' -> member (cset c) true ->
    dconstrain dbg x X c cons opt = Ret (Z, k) -> dconstrain dbg x X' c' cons' opt' = Ret (Z', k') -> rle Z Z'.
  Proof.
    induction c as [v|s|v l r|v l r|v l r|v l r|v c IHc d IHd|v c IHc d IHd]; intros c' X X' Z Z' cons opt k cons' opt' k' L W W' Cj PX S Oc Oc' Vt E E';
      pose proof (cle_set _ _ L _ Vt) as Vt'; pose proof (subset_rle X X' PX S) as S';
      destruct c' as [v'|s'|v' l' r'|v' l' r'|v' l' r'|v' l' r'|v' c' d'|v' c' d']; try (destruct L; fail); try (exfalso; exact L).
    - injection E as <- _. injection E' as <- _. exact S'.
    - injection E as <- _. injection E' as <- _. exact S'.
    - destruct L as (_ & Ll & Lr), W as (Wl & Wr & _). exact (le_iso X X' S' l r l' r' v v' cons cons' opt opt' Z Z' k k' Wl Wr Ll Lr Vt Vt' E E').
    - destruct L as (_ & Ll & Lr), W as (Wl & Wr & Wx). exact (lt_iso X X' S' l r l' r' v v' cons cons' opt opt' Z Z' k k' Wl Wr Ll Lr Vt Vt' Wx E E').
    - destruct L as (_ & Ll & Lr), W as (Wl & Wr & _). exact (eq_iso X X' S' l r l' r' v v' cons cons' opt opt' Z Z' k k' Wl Wr Ll Lr Vt Vt' E E').
    - destruct L as (_ & Ll & Lr), Oc as [O1 O2], Oc' as [O1' O2']. exact (ne_iso v l r v' l' r' X X' Z Z' cons opt k cons' opt' k' W PX S' Ll Lr Vt Vt' O1 O2 O1' O2' E E').
    - pose proof W as (W1 & W2 & _). pose proof W' as (W1' & W2' & _). destruct L as (_ & L1 & L2), Cj as [J1 J2], Oc as [O1 O2], Oc' as [O1' O2'].
      destruct (conj_true v c d W Vt) as [V1 V2]. cbn [cset] in Vt, Vt'. apply bmember_iff in Vt, Vt'. cbn [dconstrain] in E, E'.
      apply bind_inv in E as ([xl k1] & E1 & E). apply bind_inv in E as ([xr k2] & E2 & E). apply bind_inv in E' as ([xl' k1'] & E1' & E'). apply bind_inv in E' as ([xr' k2'] & E2' & E').
      rewrite Vt in E. rewrite Vt' in E'. apply debug_inv in E, E'. apply bind_inv in E as (z & E & K), E' as (z' & E' & K'). injection K as <- _. injection K' as <- _.
      destruct (IHc _ _ _ _ _ _ _ _ _ _ _ L1 W1 W1' J1 PX S O1 O1' V1 E1 E1') as [A B], (IHd _ _ _ _ _ _ _ _ _ _ _ L2 W2 W2' J2 PX S O2 O2' V2 E2 E2') as [F G].
      refine (mk_rle _ _ _ _ _ _ _ _ E E'); [now apply omax_le|now apply omin_le].
    - destruct Cj.
  Qed.
  Lemma constrain_iso c c' X X' Z Z' : cle c c' -> wfc c -> wfc c' -> cconj c -> proper X -> subset X X' -> c_ops (as_X X) c -> c_ops (as_X X') c' -> member (cset c) true ->
    constrain dbg x X c = Ret Z -> constrain dbg x X' c' = Ret Z' -> rle Z Z' /\ proper Z.
  Proof.
    intros L W W' J PX S Oc Oc' V E E'. unfold constrain in *. apply bind_inv in E as ([z k] & E & F). apply bind_inv in E' as ([z' k'] & E' & F').
    apply bind_inv in F as (? & _ & F). apply bind_inv in F' as (? & _ & F'). injection F as <-. injection F' as <-.
    split; [exact (dc_iso c c' X X' z z' _ _ _ _ _ _ L W W' J PX S Oc Oc' V E E')|]. exact (proj1 (dc_within HO dbg x c X _ _ z k W PX Oc E)).
  Qed.
End Iso.
