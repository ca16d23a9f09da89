(** Proofs about conditions and [constrain] over any ordered value type. *)
From Coq Require Import Bool List Arith.
From Verif Require Import Outcome SetModel Spec SetProofs SetProofs2 Num NumLaws IntervalModel IvlSpec IvlProofs ConstrainModel CondSpec.
Import ListNotations.

Section Cond.
  Context {O : ordty} (HO : ord_laws O) (dbg : bool).
  Implicit Types (X Y Z : ivl O) (c : cond O) (o : operand O) (f g : cform O) (t : term O) (rho : nat -> O).

  (** Invariant of condition objects: the stored truth value is the exact extension of the comparison or connective. *)
  Fixpoint wfc c : Prop :=
    match c with
    | CBool _ => True
    | CSet s => wf_set s /\ exists b, member s b
    | CLe v l r => aproper (op_arg l) /\ aproper (op_arg r) /\ rel_exact o_le v (op_arg l) (op_arg r)
    | CLt v l r => aproper (op_arg l) /\ aproper (op_arg r) /\ rel_exact o_lt v (op_arg l) (op_arg r)
    | CEq v l r => aproper (op_arg l) /\ aproper (op_arg r) /\ rel_exact o_eq v (op_arg l) (op_arg r)
    | CNe v l r => aproper (op_arg l) /\ aproper (op_arg r) /\ rel_exact (fun x y => negb (o_eq x y)) v (op_arg l) (op_arg r)
    | CAnd v l r => wfc l /\ wfc r /\ wf_set v /\ forall t : bool, member v t <-> ext2 andb (member (cset l)) (member (cset r)) t
    | COr v l r => wfc l /\ wfc r /\ wf_set v /\ forall t : bool, member v t <-> ext2 orb (member (cset l)) (member (cset r)) t
    end.

  Lemma rel_exact_some (h : O -> O -> bool) v (a b : arg O) : aproper a -> aproper b -> rel_exact h v a b -> wf_set v /\ exists t : bool, member v t.
  Proof.
    intros Ha Hb [Hw H]. split; [exact Hw|]. exists (h (alower a) (alower b)). apply H.
    exists (alower a), (alower b). auto using (ael_lower HO).
  Qed.
  Lemma wfc_wf c : wfc c -> wf_set (cset c) /\ exists b, member (cset c) b.
  Proof.
    induction c; cbn.
    - intros _. split; [apply bset_of_wf|]. exists b. now apply bset_of_member.
    - auto.
    - intros (Ha & Hb & H). exact (rel_exact_some _ _ _ _ Ha Hb H).
    - intros (Ha & Hb & H). exact (rel_exact_some _ _ _ _ Ha Hb H).
    - intros (Ha & Hb & H). exact (rel_exact_some _ _ _ _ Ha Hb H).
    - intros (Ha & Hb & H). exact (rel_exact_some _ _ _ _ Ha Hb H).
    - intros (Hl & Hr & Hw & H). split; [exact Hw|].
      destruct (IHc1 Hl) as [_ [a Ha]], (IHc2 Hr) as [_ [b Hb]]. exists (a && b). apply H. exists a, b. auto.
    - intros (Hl & Hr & Hw & H). split; [exact Hw|].
      destruct (IHc1 Hl) as [_ [a Ha]], (IHc2 Hr) as [_ [b Hb]]. exists (a || b). apply H. exists a, b. auto.
  Qed.

  Lemma bnot_ok (s : bset) : wf_set s -> (exists b, member s b) ->
    exists n, bnot dbg s = Ret n /\ wf_set n /\ (exists b, member n b) /\ forall t : bool, member n t <-> member s (negb t).
  Proof.
    intros Hw He.
    assert (Hn : exists n, bnot dbg s = Ret n).
    { destruct dbg; [now apply bnot_debug|now apply bnot_release]. }
    destruct Hn as [n Hn]. exists n. split; [exact Hn|]. split; [eapply bnot_wf; eauto|].
    assert (Hx : forall t : bool, member n t <-> member s (negb t)).
    { intros t. rewrite (bnot_exact dbg s n Hw Hn t). unfold ext1. split.
      - intros (a & Ha & <-). now rewrite negb_involutive.
      - intros H. exists (negb t). split; [exact H|apply negb_involutive]. }
    split; [|exact Hx]. destruct He as [b Hb]. exists (negb b). apply Hx. now rewrite negb_involutive.
  Qed.

  Lemma and_value_ok (l r : cond O) : wf_set (cset l) -> wf_set (cset r) ->
    wf_set (and_value l r) /\ forall t : bool, member (and_value l r) t <-> ext2 andb (member (cset l)) (member (cset r)) t.
  Proof.
    intros Hl Hr.
    assert (E : and_value l r = band (cset l) (cset r)).
    { destruct l, r; cbn in *; try reflexivity; try (now apply band_bs_eq); try (now apply band_sb_eq). }
    rewrite E. split; [apply band_wf|]. now apply band_exact.
  Qed.
  Lemma or_value_ok (l r : cond O) : wf_set (cset l) -> wf_set (cset r) ->
    wf_set (or_value l r) /\ forall t : bool, member (or_value l r) t <-> ext2 orb (member (cset l)) (member (cset r)) t.
  Proof.
    intros Hl Hr.
    assert (E : or_value l r = bor (cset l) (cset r)).
    { destruct l, r; cbn in *; try reflexivity; try (now apply bor_bs_eq); try (now apply bor_sb_eq). }
    rewrite E. split; [apply bor_wf|]. now apply bor_exact.
  Qed.

  Lemma c_and_ok (l r : cond O) : wfc l -> wfc r ->
    wfc (c_and l r) /\ forall t : bool, member (cset (c_and l r)) t <-> ext2 andb (member (cset l)) (member (cset r)) t.
  Proof.
    intros Hl Hr. destruct (wfc_wf l Hl) as [Wl [a Ma]], (wfc_wf r Hr) as [Wr [b Mb]].
    destruct (and_value_ok l r Wl Wr) as [Wv Mv].
    assert (Hs : wfc (CSet (and_value l r))).
    { cbn. split; [exact Wv|]. exists (a && b). apply Mv. exists a, b. auto. }
    unfold c_and. destruct (is_cond l || is_cond r) eqn:E.
    - cbn. auto.
    - destruct l, r; cbn in E; try discriminate; try (split; [exact Hs|exact Mv]).
      split; [exact I|]. cbn. intros t. rewrite bset_of_member. unfold ext2. split.
      + intros ->. exists b0, b1. rewrite !bset_of_member. auto.
      + intros (p & q & Hp & Hq & <-). apply bset_of_member in Hp. apply bset_of_member in Hq. now subst.
  Qed.
  Lemma c_or_ok (l r : cond O) : wfc l -> wfc r ->
    wfc (c_or l r) /\ forall t : bool, member (cset (c_or l r)) t <-> ext2 orb (member (cset l)) (member (cset r)) t.
  Proof.
    intros Hl Hr. destruct (wfc_wf l Hl) as [Wl [a Ma]], (wfc_wf r Hr) as [Wr [b Mb]].
    destruct (or_value_ok l r Wl Wr) as [Wv Mv].
    assert (Hs : wfc (CSet (or_value l r))).
    { cbn. split; [exact Wv|]. exists (a || b). apply Mv. exists a, b. auto. }
    unfold c_or. destruct (is_cond l || is_cond r) eqn:E.
    - cbn. auto.
    - destruct l, r; cbn in E; try discriminate; try (split; [exact Hs|exact Mv]).
      split; [exact I|]. cbn. intros t. rewrite bset_of_member. unfold ext2. split.
      + intros ->. exists b0, b1. rewrite !bset_of_member. auto.
      + intros (p & q & Hp & Hq & <-). apply bset_of_member in Hp. apply bset_of_member in Hq. now subst.
  Qed.

  Lemma rel_exact_flip (h k : O -> O -> bool) (v n : bset) (a b : arg O) :
    (forall x y, ael a x -> ael b y -> k y x = negb (h x y)) -> wf_set n -> (forall t : bool, member n t <-> member v (negb t)) ->
    rel_exact h v a b -> rel_exact k n b a.
  Proof.
    intros Hk Hw Hn [_ H]. split; [exact Hw|]. intros t. rewrite Hn, H. split.
    - intros (x & y & Hx & Hy & E). exists y, x. split; [exact Hy|split; [exact Hx|]]. rewrite (Hk x y Hx Hy), E. apply negb_involutive.
    - intros (y & x & Hy & Hx & E). exists x, y. split; [exact Hx|split; [exact Hy|]]. rewrite (Hk x y Hx Hy) in E. rewrite <- E. now rewrite negb_involutive.
  Qed.
  Lemma rel_exact_compl (h k : O -> O -> bool) (v n : bset) (a b : arg O) :
    (forall x y, k x y = negb (h x y)) -> wf_set n -> (forall t : bool, member n t <-> member v (negb t)) ->
    rel_exact h v a b -> rel_exact k n a b.
  Proof.
    intros Hk Hw Hn [_ H]. split; [exact Hw|]. intros t. rewrite Hn, H. split.
    - intros (x & y & Hx & Hy & E). exists x, y. split; [exact Hx|split; [exact Hy|]]. rewrite Hk, E. apply negb_involutive.
    - intros (x & y & Hx & Hy & E). exists x, y. split; [exact Hx|split; [exact Hy|]]. rewrite Hk in E. rewrite <- E. now rewrite negb_involutive.
  Qed.
  Lemma lt_not_le (x y : O) : ok x -> ok y -> o_lt y x = negb (o_le x y).
  Proof. intros Hx Hy. destruct (o_le x y) eqn:E; cbn; ord HO. Qed.
  Lemma le_not_lt (x y : O) : ok x -> ok y -> o_le y x = negb (o_lt x y).
  Proof. intros Hx Hy. rewrite (lt_not_le y x Hy Hx). symmetry. apply negb_involutive. Qed.

  Lemma c_not_ok c : wfc c -> exists c', c_not dbg c = Ret c' /\ wfc c' /\ forall t : bool, member (cset c') t <-> member (cset c) (negb t).
  Proof.
    induction c; cbn [c_not]; intros H.
    - eexists. split; [reflexivity|]. split; [exact I|]. cbn. intros t. rewrite !bset_of_member. destruct b, t; cbn; split; congruence.
    - destruct H as [Hw He]. destruct (bnot_ok _ Hw He) as (n & En & Wn & Sn & Mn). rewrite En. cbn. eexists. split; [reflexivity|]. cbn. auto.
    - pose proof H as (Ha & Hb & Hx). destruct (wfc_wf _ H) as [Hw He]. cbn in Hw, He. destruct (bnot_ok _ Hw He) as (n & En & Wn & Sn & Mn). rewrite En. cbn. eexists. split; [reflexivity|]. cbn.
      split; [|exact Mn]. split; [exact Hb|split; [exact Ha|]]. eapply rel_exact_flip; eauto. intros x y Ex Ey. apply lt_not_le; eauto using (ael_ok HO).
    - pose proof H as (Ha & Hb & Hx). destruct (wfc_wf _ H) as [Hw He]. cbn in Hw, He. destruct (bnot_ok _ Hw He) as (n & En & Wn & Sn & Mn). rewrite En. cbn. eexists. split; [reflexivity|]. cbn.
      split; [|exact Mn]. split; [exact Hb|split; [exact Ha|]]. eapply rel_exact_flip; eauto. intros x y Ex Ey. apply le_not_lt; eauto using (ael_ok HO).
    - pose proof H as (Ha & Hb & Hx). destruct (wfc_wf _ H) as [Hw He]. cbn in Hw, He. destruct (bnot_ok _ Hw He) as (n & En & Wn & Sn & Mn). rewrite En. cbn. eexists. split; [reflexivity|]. cbn.
      split; [|exact Mn]. split; [exact Ha|split; [exact Hb|]]. eapply rel_exact_compl; eauto.
    - pose proof H as (Ha & Hb & Hx). destruct (wfc_wf _ H) as [Hw He]. cbn in Hw, He. destruct (bnot_ok _ Hw He) as (n & En & Wn & Sn & Mn). rewrite En. cbn. eexists. split; [reflexivity|]. cbn.
      split; [|exact Mn]. split; [exact Ha|split; [exact Hb|]]. eapply rel_exact_compl; eauto. intros x y. cbn. now rewrite negb_involutive.
    - pose proof H as (Hl & Hr & _ & Hx). destruct (wfc_wf _ H) as [Hw He]. cbn in Hw, He. destruct (bnot_ok _ Hw He) as (n & En & Wn & Sn & Mn). rewrite En. cbn [bind].
      destruct (is_cond c1 && is_cond c2).
      + destruct (IHc1 Hl) as (l' & El & Wl & Ml), (IHc2 Hr) as (r' & Er & Wr & Mr). rewrite El, Er. cbn. eexists. split; [reflexivity|]. cbn.
        split; [|exact Mn]. split; [exact Wl|split; [exact Wr|split; [exact Wn|]]]. intros t. rewrite Mn, Hx. unfold ext2. split.
        * intros (p & q & Hp & Hq & E). exists (negb p), (negb q). rewrite Ml, Mr, !negb_involutive. repeat split; auto. rewrite <- negb_andb, E. apply negb_involutive.
        * intros (p & q & Hp & Hq & E). exists (negb p), (negb q). rewrite Ml in Hp. rewrite Mr in Hq. repeat split; auto. rewrite <- negb_orb. now rewrite E.
      + eexists. split; [reflexivity|]. cbn. auto.
    - pose proof H as (Hl & Hr & _ & Hx). destruct (wfc_wf _ H) as [Hw He]. cbn in Hw, He. destruct (bnot_ok _ Hw He) as (n & En & Wn & Sn & Mn). rewrite En. cbn [bind].
      destruct (is_cond c1 && is_cond c2).
      + destruct (IHc1 Hl) as (l' & El & Wl & Ml), (IHc2 Hr) as (r' & Er & Wr & Mr). rewrite El, Er. cbn. eexists. split; [reflexivity|]. cbn.
        split; [|exact Mn]. split; [exact Wl|split; [exact Wr|split; [exact Wn|]]]. intros t. rewrite Mn, Hx. unfold ext2. split.
        * intros (p & q & Hp & Hq & E). exists (negb p), (negb q). rewrite Ml, Mr, !negb_involutive. repeat split; auto. rewrite <- negb_orb, E. apply negb_involutive.
        * intros (p & q & Hp & Hq & E). exists (negb p), (negb q). rewrite Ml in Hp. rewrite Mr in Hq. repeat split; auto. rewrite <- negb_andb. now rewrite E.
      + eexists. split; [reflexivity|]. cbn. auto.
  Qed.

  (** ** Evaluating a formula *)
  Lemma term_proper t : (match t with TVar _ X => proper X | TVal a => aproper a end) -> aproper (op_arg (operand_of t)).
  Proof. destruct t; cbn; auto. Qed.
  Lemma term_el t x : ael (op_arg (operand_of t)) x <-> tel t x.
  Proof. destruct t; reflexivity. Qed.

  Lemma possible_rel r (s t : term O) (b : bool) : possible (GRel r s t) b <-> exists x y, tel s x /\ tel t y /\ rel_holds r x y = b.
  Proof.
    split; [intros H; inversion H; subst; eauto 6|]. intros (x & y & Hx & Hy & <-). now constructor.
  Qed.
  Lemma possible_and f g (b : bool) : possible (GAnd f g) b <-> ext2 andb (possible f) (possible g) b.
  Proof. split; [intros H; inversion H; subst; unfold ext2; eauto 6|]. intros (p & q & Hp & Hq & <-). now constructor. Qed.
  Lemma possible_or f g (b : bool) : possible (GOr f g) b <-> ext2 orb (possible f) (possible g) b.
  Proof. split; [intros H; inversion H; subst; unfold ext2; eauto 6|]. intros (p & q & Hp & Hq & <-). now constructor. Qed.
  Lemma possible_not f (b : bool) : possible (GNot f) b <-> possible f (negb b).
  Proof.
    split; [intros H; inversion H; subst; now rewrite negb_involutive|]. intros H. rewrite <- (negb_involutive b). now constructor.
  Qed.
  Lemma ext2_iff (h : bool -> bool -> bool) (P Q P' Q' : bool -> Prop) (b : bool) :
    (forall t : bool, P t <-> P' t) -> (forall t : bool, Q t <-> Q' t) -> ext2 h P Q b <-> ext2 h P' Q' b.
  Proof. intros HP HQ. unfold ext2. split; intros (p & q & Hp & Hq & E); exists p, q; (split; [now apply HP|split; [now apply HQ|exact E]]). Qed.

  Lemma legal_and f g : legal (GAnd f g) <-> legal f /\ legal g.
  Proof. unfold legal; cbn; tauto. Qed.
  Lemma legal_or f g : legal (GOr f g) <-> legal f /\ legal g.
  Proof. unfold legal; cbn; tauto. Qed.

  Definition rel_value (r : rel) (s t : term O) : cond O :=
    let a := operand_of s in let b := operand_of t in
    match r with
    | REq => CEq (compare_eq (op_arg a) (op_arg b)) a b
    | RNe => CNe (compare_neq (op_arg a) (op_arg b)) a b
    | RLt => CLt (compare_lt (op_arg a) (op_arg b)) a b
    | RLe => CLe (compare_leq (op_arg a) (op_arg b)) a b
    | RGt => CLt (compare_lt (op_arg b) (op_arg a)) b a
    | RGe => CLe (compare_leq (op_arg b) (op_arg a)) b a
    end.
  Lemma rel_build r (s t : term O) : legal (GRel r s t) -> build dbg (GRel r s t) = Ret (rel_value r s t).
  Proof.
    intros [[Hs Ht] _]. apply term_proper in Hs. apply term_proper in Ht.
    assert (E : rel_pre dbg (op_arg (operand_of s)) (op_arg (operand_of t)) = Ret tt) by (apply (rel_pre_ok HO); assumption).
    destruct r; cbn [build]; unfold c_eq, c_ne, c_lt, c_le, c_gt, c_ge, rel_eq, rel_neq, rel_lt, rel_leq, rel_gt, rel_geq;
      rewrite E; reflexivity.
  Qed.
  Lemma rel_wfc r (s t : term O) : legal (GRel r s t) ->
    wfc (rel_value r s t) /\ forall b : bool, member (cset (rel_value r s t)) b <-> possible (GRel r s t) b.
  Proof.
    intros [[Hs Ht] _]. apply term_proper in Hs. apply term_proper in Ht.
    assert (W : wfc (rel_value r s t)).
    { destruct r; cbn; (split; [assumption|split; [assumption|]]);
        auto using (compare_eq_exact HO), (compare_neq_exact HO), (compare_lt_exact HO), (compare_leq_exact HO). }
    split; [exact W|]. intros b. rewrite possible_rel.
    destruct r; cbn in W |- *; destruct W as (_ & _ & _ & W); rewrite W; cbn;
      first [ solve [split; intros (x & y & Hx & Hy & E); exists x, y; (split; [now apply term_el|split; [now apply term_el|exact E]])]
            | solve [split; intros (x & y & Hx & Hy & E); exists y, x; (split; [now apply term_el|split; [now apply term_el|exact E]])] ].
  Qed.

  Lemma build_ok f : legal f -> exists c, build dbg f = Ret c /\ wfc c /\ forall b : bool, member (cset c) b <-> possible f b.
  Proof.
    induction f as [b|s|r s t|f IH|f IHf g IHg|f IHf g IHg]; intros H.
    - eexists. split; [reflexivity|]. split; [exact I|]. cbn. intros t. rewrite bset_of_member. split; [intros ->; constructor|intros Hp; inversion Hp; auto].
    - destruct H as [_ H]. cbn in H. eexists. split; [reflexivity|]. split; [exact H|]. cbn. intros t. split; [now constructor|intros Hp; inversion Hp; auto].
    - rewrite (rel_build r s t H). eexists. split; [reflexivity|]. now apply rel_wfc.
    - destruct (IH H) as (c & E & W & M). cbn. rewrite E. cbn. destruct (c_not_ok c W) as (c' & E' & W' & M'). rewrite E'. eexists. split; [reflexivity|]. split; [exact W'|].
      intros b. now rewrite M', M, possible_not.
    - apply legal_and in H. destruct H as [Hf Hg]. destruct (IHf Hf) as (c & E & W & M), (IHg Hg) as (d & E' & W' & M'). cbn. rewrite E, E'. cbn.
      destruct (c_and_ok c d W W') as [W2 M2]. eexists. split; [reflexivity|]. split; [exact W2|]. intros b. rewrite M2, possible_and. now apply ext2_iff.
    - apply legal_or in H. destruct H as [Hf Hg]. destruct (IHf Hf) as (c & E & W & M), (IHg Hg) as (d & E' & W' & M'). cbn. rewrite E, E'. cbn.
      destruct (c_or_ok c d W W') as [W2 M2]. eexists. split; [reflexivity|]. split; [exact W2|]. intros b. rewrite M2, possible_or. now apply ext2_iff.
  Qed.

  Lemma tval_tel rho t x : (match t with TVar i X => el X (rho i) | TVal _ => True end) -> tval rho t x -> tel t x.
  Proof. destruct t; cbn; [intros H ->; exact H|auto]. Qed.
  Lemma truth_possible rho f (b : bool) : inside rho f -> truth rho f b -> possible f b.
  Proof.
    intros Hi H. induction H; cbn in Hi; try (constructor; auto).
    - eapply tval_tel; eauto. apply Hi.
    - eapply tval_tel; eauto. apply Hi.
    - apply IHtruth1, Hi.
    - apply IHtruth2, Hi.
    - apply IHtruth1, Hi.
    - apply IHtruth2, Hi.
  Qed.
End Cond.
