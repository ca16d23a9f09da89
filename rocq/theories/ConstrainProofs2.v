(** Proofs about conditions: moving negations inwards. *)
From Coq Require Import Bool List Arith.
From Verif Require Import Outcome SetModel Spec SetProofs SetProofs2 Num NumLaws IntervalModel IvlSpec IvlProofs ConstrainModel CondSpec ConstrainProofs.
Import ListNotations.

Section Cond.
  Context {O : ordty} (HO : ord_laws O) (dbg : bool).
  Implicit Types (X Y Z : ivl O) (c : cond O) (o : operand O) (f g : cform O) (t : term O) (rho : nat -> O).

  Lemma bset_ext (s t : bset) : wf_set s -> wf_set t -> (forall b : bool, member s b <-> member t b) -> s = t.
  Proof.
    intros Hs Ht H. pose proof (H true) as H1. pose proof (H false) as H2. rewrite !bmember_iff in H1, H2. clear H.
    destruct (bset_cases s Hs) as [ -> |[ -> |[ -> | ->]]], (bset_cases t Ht) as [ -> |[ -> |[ -> | ->]]];
      try reflexivity; exfalso; vm_compute in H1, H2; intuition discriminate.
  Qed.

  (** All nodes carry constraint information. *)
  Fixpoint cpure c : Prop :=
    match c with CBool _ | CSet _ => False | CAnd _ l r | COr _ l r => cpure l /\ cpure r | _ => True end.
  Lemma cpure_cond c : cpure c -> is_cond c = true.
  Proof. destruct c; cbn; auto; contradiction. Qed.
  Lemma c_not_pure c : cpure c -> forall c', c_not dbg c = Ret c' -> cpure c'.
  Proof.
    induction c; cbn [c_not]; intros P c' E; try contradiction P; destruct (bnot dbg v) as [n| | | |]; cbn [bind] in E; try discriminate E;
      try (injection E as <-; exact I); destruct P as [P1 P2]; rewrite (cpure_cond _ P1), (cpure_cond _ P2) in E; cbn [andb] in E.
    - destruct (c_not dbg c1) as [l| | | |]; cbn in E; try discriminate E. destruct (c_not dbg c2) as [r| | | |]; cbn in E; try discriminate E.
      injection E as <-. split; auto.
    - destruct (c_not dbg c1) as [l| | | |]; cbn in E; try discriminate E. destruct (c_not dbg c2) as [r| | | |]; cbn in E; try discriminate E.
      injection E as <-. split; auto.
  Qed.
  Lemma c_not_invol c : cpure c -> wfc c -> forall c', c_not dbg c = Ret c' -> c_not dbg c' = Ret c.
  Proof.
    induction c; cbn [c_not]; intros Hp W c' E'; try contradiction Hp; pose proof (wfc_wf HO _ W) as [Wv He]; cbn [cset] in Wv, He;
      destruct (bnot_ok dbg _ Wv He) as (n & En & Wn & Sn & Mn); rewrite En in E'; cbn [bind] in E';
      destruct (bnot_ok dbg _ Wn Sn) as (m & Em & Wm & Sm & Mm);
      assert (Ev : m = v) by (apply bset_ext; auto; intros b; rewrite Mm, Mn, negb_involutive; tauto); subst m;
      try (injection E' as <-; cbn [c_not]; rewrite Em; reflexivity).
    - destruct Hp as [P1 P2], W as (W1 & W2 & _). rewrite (cpure_cond _ P1), (cpure_cond _ P2) in E'. cbn [andb] in E'.
      destruct (c_not dbg c1) as [l| | | |] eqn:E1; cbn in E'; try discriminate. destruct (c_not dbg c2) as [r| | | |] eqn:E2; cbn in E'; try discriminate.
      injection E' as <-. cbn [c_not]. rewrite Em. cbn [bind].
      rewrite (cpure_cond l), (cpure_cond r) by eauto using c_not_pure. cbn [andb].
      rewrite (IHc1 P1 W1 l eq_refl), (IHc2 P2 W2 r eq_refl). reflexivity.
    - destruct Hp as [P1 P2], W as (W1 & W2 & _). rewrite (cpure_cond _ P1), (cpure_cond _ P2) in E'. cbn [andb] in E'.
      destruct (c_not dbg c1) as [l| | | |] eqn:E1; cbn in E'; try discriminate. destruct (c_not dbg c2) as [r| | | |] eqn:E2; cbn in E'; try discriminate.
      injection E' as <-. cbn [c_not]. rewrite Em. cbn [bind].
      rewrite (cpure_cond l), (cpure_cond r) by eauto using c_not_pure. cbn [andb].
      rewrite (IHc1 P1 W1 l eq_refl), (IHc2 P2 W2 r eq_refl). reflexivity.
  Qed.

  (** Formulas without comparisons give plain conditions, comparisons conditions with constraints. *)
  Lemma build_plain f c : build dbg f = Ret c -> plain f = true -> is_cond c = false.
  Proof.
    revert c. induction f as [b|s|r s t|f IH|f IHf g IHg|f IHf g IHg]; cbn; intros c E P; try discriminate.
    - now injection E as <-.
    - now injection E as <-.
    - destruct (build dbg f) as [d| | | |]; try discriminate. specialize (IH d eq_refl P). cbn in E.
      destruct d; try discriminate IH; cbn in E.
      + now injection E as <-.
      + destruct (bnot dbg s); cbn in E; try discriminate. now injection E as <-.
    - apply andb_true_iff in P. destruct P as [P Q].
      destruct (build dbg f) as [l| | | |]; try discriminate. destruct (build dbg g) as [r| | | |]; try discriminate.
      specialize (IHf l eq_refl P). specialize (IHg r eq_refl Q). cbn in E. injection E as <-.
      unfold c_and. rewrite IHf, IHg. cbn. destruct l; try discriminate IHf; destruct r; try discriminate IHg; reflexivity.
    - apply andb_true_iff in P. destruct P as [P Q].
      destruct (build dbg f) as [l| | | |]; try discriminate. destruct (build dbg g) as [r| | | |]; try discriminate.
      specialize (IHf l eq_refl P). specialize (IHg r eq_refl Q). cbn in E. injection E as <-.
      unfold c_or. rewrite IHf, IHg. cbn. destruct l; try discriminate IHf; destruct r; try discriminate IHg; reflexivity.
  Qed.
  Lemma build_pure f c : legal f -> comparisons f = true -> build dbg f = Ret c -> cpure c.
  Proof.
    revert c. induction f as [b|s|r s t|f IH|f IHf g IHg|f IHf g IHg]; intros c L P E; try discriminate P.
    - rewrite (rel_build HO dbg r s t L) in E. injection E as <-. now destruct r.
    - cbn in E, P. destruct (build dbg f) as [d| | | |]; try discriminate E. cbn in E. eapply c_not_pure; [|exact E]. apply IH; auto.
    - cbn in E, P. apply andb_true_iff in P. destruct P as [P Q]. apply legal_and in L. destruct L as [L1 L2].
      destruct (build dbg f) as [l| | | |]; try discriminate. destruct (build dbg g) as [r| | | |]; try discriminate.
      specialize (IHf l L1 P eq_refl). specialize (IHg r L2 Q eq_refl). cbn in E. injection E as <-.
      unfold c_and. rewrite (cpure_cond _ IHf). cbn. auto.
    - cbn in E, P. apply andb_true_iff in P. destruct P as [P Q]. apply legal_or in L. destruct L as [L1 L2].
      destruct (build dbg f) as [l| | | |]; try discriminate. destruct (build dbg g) as [r| | | |]; try discriminate.
      specialize (IHf l L1 P eq_refl). specialize (IHg r L2 Q eq_refl). cbn in E. injection E as <-.
      unfold c_or. rewrite (cpure_cond _ IHf). cbn. auto.
  Qed.
  Lemma comparisons_not_plain f : comparisons f = true -> plain f = false.
  Proof.
    induction f as [b|s|r s t|f IH|f IHf g IHg|f IHf g IHg]; cbn; try discriminate; auto.
    - intros H. apply andb_true_iff in H. rewrite IHf; [reflexivity|apply H].
    - intros H. apply andb_true_iff in H. rewrite IHf; [reflexivity|apply H].
  Qed.

  Lemma legal_nnf f : legal f -> forall p, legal (nnf p f).
  Proof.
    induction f as [b|s|r s t|f IH|f IHf g IHg|f IHf g IHg]; intros L p; cbn [nnf]; try (destruct p; exact L).
    - destruct (plain f); [destruct p; exact L|now apply IH].
    - apply legal_and in L. destruct L. destruct p; [apply legal_and|apply legal_or]; auto.
    - apply legal_or in L. destruct L. destruct p; [apply legal_or|apply legal_and]; auto.
  Qed.

  Lemma rel_neg_holds r (s t : term O) : forall x y, tel s x -> tel t y -> rel_holds (rel_neg r) x y = negb (rel_holds r x y).
  Proof.
    intros x y Hx Hy. apply term_el in Hx. apply term_el in Hy. apply (ael_ok HO) in Hx. apply (ael_ok HO) in Hy.
    destruct r; cbn; rewrite ?negb_involutive; auto using (lt_not_le HO), (le_not_lt HO).
  Qed.
  (** A value of one comparison determines that of the opposite one. *)
  Lemma rel_value_neg r (s t : term O) : legal (GRel r s t) -> c_not dbg (rel_value r s t) = Ret (rel_value (rel_neg r) s t).
  Proof.
    intros L. destruct (rel_wfc HO r s t L) as [W M].
    assert (L' : legal (GRel (rel_neg r) s t)) by exact L.
    destruct (rel_wfc HO (rel_neg r) s t L') as [W' M'].
    destruct (wfc_wf HO _ W) as [Wv He]. destruct (bnot_ok dbg _ Wv He) as (n & En & Wn & Sn & Mn).
    assert (E : n = cset (rel_value (rel_neg r) s t)).
    { apply bset_ext; [exact Wn|apply (wfc_wf HO _ W')|]. intros b. rewrite Mn, M, M', !possible_rel.
      split; intros (x & y & Hx & Hy & E); exists x, y; (split; [exact Hx|split; [exact Hy|]]).
      - rewrite (rel_neg_holds r s t x y Hx Hy), E. apply negb_involutive.
      - rewrite (rel_neg_holds r s t x y Hx Hy) in E. rewrite <- E. symmetry. apply negb_involutive. }
    destruct r; cbn [rel_value c_not]; cbn [rel_value cset] in En; rewrite En; cbn [bind]; rewrite E; reflexivity.
  Qed.

  Lemma build_bind f : build dbg (GNot f) = (c <- build dbg f ;; c_not dbg c).
  Proof. reflexivity. Qed.

  (** De Morgan, on condition objects. *)
  Lemma c_not_and (l r l' r' : cond O) : wfc l -> wfc r -> cpure l -> cpure r -> c_not dbg l = Ret l' -> c_not dbg r = Ret r' ->
    c_not dbg (c_and l r) = Ret (c_or l' r') /\ c_not dbg (c_or l r) = Ret (c_and l' r').
  Proof.
    intros Wl Wr Pl Pr El Er.
    destruct (c_not_ok HO dbg l Wl) as (l2 & El2 & Wl' & Ml). rewrite El in El2. injection El2 as <-.
    destruct (c_not_ok HO dbg r Wr) as (r2 & Er2 & Wr' & Mr). rewrite Er in Er2. injection Er2 as <-.
    pose proof (c_not_pure l Pl l' El) as Pl'. pose proof (c_not_pure r Pr r' Er) as Pr'.
    destruct (wfc_wf HO _ Wl) as [Vl _], (wfc_wf HO _ Wr) as [Vr _], (wfc_wf HO _ Wl') as [Vl' _], (wfc_wf HO _ Wr') as [Vr' _].
    destruct (c_and_ok HO l r Wl Wr) as [WA MA], (c_or_ok HO l r Wl Wr) as [WO MO].
    unfold c_and, c_or in *. rewrite !(cpure_cond _ Pl), !(cpure_cond _ Pl') in *. cbn [orb] in *. cbn [c_not].
    rewrite (cpure_cond _ Pl), (cpure_cond _ Pr). cbn [andb]. rewrite El, Er. cbn [cset] in MA, MO.
    destruct (wfc_wf HO _ WA) as [VA SA], (wfc_wf HO _ WO) as [VO SO]. cbn [cset] in VA, SA, VO, SO.
    destruct (bnot_ok dbg _ VA SA) as (n & En & Wn & _ & Mn), (bnot_ok dbg _ VO SO) as (m & Em & Wm & _ & Mm).
    destruct (and_value_ok l' r' Vl' Vr') as [VA' MA'], (or_value_ok l' r' Vl' Vr') as [VO' MO'].
    rewrite En, Em. cbn [bind]. split; do 2 f_equal; apply bset_ext; auto; intros t.
    - rewrite Mn, MA, MO'. unfold ext2. split; intros (p & q & Hp & Hq & E); exists (negb p), (negb q).
      + rewrite Ml, Mr, !negb_involutive. repeat split; auto. rewrite <- negb_andb, E. apply negb_involutive.
      + rewrite Ml in Hp. rewrite Mr in Hq. repeat split; auto. rewrite <- negb_orb. now rewrite E.
    - rewrite Mm, MO, MA'. unfold ext2. split; intros (p & q & Hp & Hq & E); exists (negb p), (negb q).
      + rewrite Ml, Mr, !negb_involutive. repeat split; auto. rewrite <- negb_orb, E. apply negb_involutive.
      + rewrite Ml in Hp. rewrite Mr in Hq. repeat split; auto. rewrite <- negb_andb. now rewrite E.
  Qed.

  (** The condition of a negated formula is the condition of the formula with the negation moved inwards. *)
  Lemma build_neg f : legal f -> comparisons f = true -> forall p, build dbg (nnf p f) = if p then build dbg f else build dbg (GNot f).
  Proof.
    induction f as [b|s|r s t|f IH|f IHf g IHg|f IHf g IHg]; intros L P p; try discriminate P.
    - destruct p; [reflexivity|]. cbn [nnf]. rewrite (rel_build HO dbg _ _ _ (L : legal (GRel (rel_neg r) s t))).
      rewrite build_bind, (rel_build HO dbg _ _ _ L). cbn [bind]. symmetry. now apply rel_value_neg.
    - cbn in P. cbn [nnf]. rewrite (comparisons_not_plain f P). rewrite (IH L P (negb p)). destruct p; cbn [negb]; [reflexivity|].
      rewrite !build_bind. destruct (build_ok HO dbg f L) as (c & E & W & _). pose proof (build_pure f c L P E) as Q. rewrite E. cbn [bind].
      destruct (c_not_ok HO dbg c W) as (c' & E' & _). rewrite E'. cbn [bind]. symmetry. now apply (c_not_invol c Q W).
    - cbn in P. apply andb_true_iff in P. destruct P as [P Q]. apply legal_and in L. destruct L as [L1 L2].
      destruct p; cbn [nnf].
      + cbn [build]. now rewrite (IHf L1 P true), (IHg L2 Q true).
      + rewrite build_bind. cbn [build]. rewrite (IHf L1 P false), (IHg L2 Q false), !build_bind.
        destruct (build_ok HO dbg f L1) as (l & El & Wl & _), (build_ok HO dbg g L2) as (r & Er & Wr & _). rewrite El, Er. cbn [bind].
        destruct (c_not_ok HO dbg l Wl) as (l' & El' & _), (c_not_ok HO dbg r Wr) as (r' & Er' & _). rewrite El', Er'. cbn [bind]. symmetry.
        apply c_not_and; eauto using build_pure.
    - cbn in P. apply andb_true_iff in P. destruct P as [P Q]. apply legal_or in L. destruct L as [L1 L2].
      destruct p; cbn [nnf].
      + cbn [build]. now rewrite (IHf L1 P true), (IHg L2 Q true).
      + rewrite build_bind. cbn [build]. rewrite (IHf L1 P false), (IHg L2 Q false), !build_bind.
        destruct (build_ok HO dbg f L1) as (l & El & Wl & _), (build_ok HO dbg g L2) as (r & Er & Wr & _). rewrite El, Er. cbn [bind].
        destruct (c_not_ok HO dbg l Wl) as (l' & El' & _), (c_not_ok HO dbg r Wr) as (r' & Er' & _). rewrite El', Er'. cbn [bind]. symmetry.
        apply c_not_and; eauto using build_pure.
  Qed.
  Lemma build_nnf f : legal f -> unmixed f = true -> build dbg (nnf true f) = build dbg f.
  Proof.
    induction f as [b|s|r s t|f IH|f IHf g IHg|f IHf g IHg]; intros L U; try reflexivity.
    - cbn in U. cbn [nnf]. destruct (plain f) eqn:E; [reflexivity|]. cbn in U. cbn [negb]. now rewrite (build_neg f L U false).
    - cbn in U. apply andb_true_iff in U. destruct U. apply legal_and in L. destruct L. cbn [nnf build]. now rewrite IHf, IHg.
    - cbn in U. apply andb_true_iff in U. destruct U. apply legal_or in L. destruct L. cbn [nnf build]. now rewrite IHf, IHg.
  Qed.

  (** Moving negations inwards changes neither truth nor the occurring objects. *)
  Lemma all_terms_nnf (P : term O -> Prop) f : forall p, all_terms P (nnf p f) <-> all_terms P f.
  Proof.
    induction f as [b|s|r s t|f IH|f IHf g IHg|f IHf g IHg]; intros p; cbn [nnf]; try (destruct p; cbn; tauto).
    - destruct (plain f); [destruct p; cbn; tauto|]. cbn. apply IH.
    - destruct p; cbn; rewrite IHf, IHg; tauto.
    - destruct p; cbn; rewrite IHf, IHg; tauto.
  Qed.
  Lemma mentions_nnf x f : forall p, mentions x (nnf p f) = mentions x f.
  Proof.
    induction f as [b|s|r s t|f IH|f IHf g IHg|f IHf g IHg]; intros p; cbn [nnf]; try (destruct p; reflexivity).
    - destruct (plain f); [destruct p; reflexivity|]. cbn. apply IH.
    - destruct p; cbn; now rewrite IHf, IHg.
    - destruct p; cbn; now rewrite IHf, IHg.
  Qed.
  Lemma truth_nnf rho f (b : bool) : inside rho f -> truth rho f b -> forall p, truth rho (nnf p f) (if p then b else negb b).
  Proof.
    intros Hi H. induction H; intros p; cbn [nnf]; cbn [inside all_terms] in Hi.
    - destruct p; repeat constructor.
    - destruct p; repeat constructor; assumption.
    - destruct p; [now constructor|]. destruct Hi as [Hs Ht].
      rewrite <- (rel_neg_holds r s t x y) by (eapply tval_tel; eauto). now constructor.
    - destruct (plain f); [destruct p; repeat constructor; assumption|].
      specialize (IHtruth Hi (negb p)). destruct p; cbn in *; rewrite ?negb_involutive in *; assumption.
    - unfold inside in Hi. cbn in Hi. destruct Hi as [H1 H2]. specialize (IHtruth1 H1 p). specialize (IHtruth2 H2 p). destruct p; [now constructor|].
      rewrite negb_andb. now constructor.
    - unfold inside in Hi. cbn in Hi. destruct Hi as [H1 H2]. specialize (IHtruth1 H1 p). specialize (IHtruth2 H2 p). destruct p; [now constructor|].
      rewrite negb_orb. now constructor.
  Qed.
End Cond.
