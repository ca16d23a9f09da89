(** Proofs about [constrain]: no widening, rejection of other objects, exactness for one comparison. *)
From Coq Require Import Bool List Arith.
From Verif Require Import Outcome SetModel Spec SetProofs SetProofs2 Num NumLaws IntervalModel IvlSpec IvlProofs ConstrainModel CondSpec
  ConstrainProofs ConstrainProofs2 ConstrainProofs3 ConstrainProofs4.
Import ListNotations.

Section Cond.
  Context {O : ordty} (HO : ord_laws O) (dbg : bool) (x : nat).
  Implicit Types (X Y Z : ivl O) (c : cond O) (l r : operand O) (a b : O) (f g : cform O) (rho : nat -> O).

  (** All operands of a condition satisfy [P]. *)
  Fixpoint c_ops (P : operand O -> Prop) c : Prop :=
    match c with
    | CBool _ | CSet _ => True
    | CLe _ l r | CLt _ l r | CEq _ l r | CNe _ l r => P l /\ P r
    | CAnd _ l r | COr _ l r => c_ops P l /\ c_ops P r
    end.
  Lemma c_not_ops (P : operand O -> Prop) c : c_ops P c -> forall c', c_not dbg c = Ret c' -> c_ops P c'.
  Proof.
    induction c; cbn [c_not]; intros H c' E; [injection E as <-; exact I|destruct (bnot dbg s); try discriminate E; injection E as <-; exact I|..];
      destruct (bnot dbg v) as [n| | | |]; cbn [bind] in E; try discriminate E; try (injection E as <-; cbn in *; tauto).
    - destruct (is_cond c1 && is_cond c2); [|injection E as <-; exact I].
      destruct (c_not dbg c1); cbn in E; try discriminate E. destruct (c_not dbg c2); cbn in E; try discriminate E. injection E as <-.
      destruct H. split; auto.
    - destruct (is_cond c1 && is_cond c2); [|injection E as <-; exact I].
      destruct (c_not dbg c1); cbn in E; try discriminate E. destruct (c_not dbg c2); cbn in E; try discriminate E. injection E as <-.
      destruct H. split; auto.
  Qed.
  Lemma build_ops (P : operand O -> Prop) f : all_terms (fun t => P (operand_of t)) f -> forall c, build dbg f = Ret c -> c_ops P c.
  Proof.
    induction f as [b|s|r s t|f IH|f IHf g IHg|f IHf g IHg]; intros H c E.
    - injection E as <-. exact I.
    - injection E as <-. exact I.
    - destruct r; cbn in E; unfold c_eq, c_ne, c_lt, c_le, c_gt, c_ge in E;
        match type of E with (bind ?m _ = _) => destruct m; cbn in E; try discriminate E; injection E as <-; cbn in *; tauto end.
    - cbn in E. destruct (build dbg f) as [d| | | |]; try discriminate E. eapply c_not_ops; [|exact E]. apply IH; auto.
    - cbn in E. destruct H as [H1 H2]. destruct (build dbg f) as [l| | | |]; try discriminate. destruct (build dbg g) as [r| | | |]; try discriminate.
      cbn in E. injection E as <-. specialize (IHf H1 l eq_refl). specialize (IHg H2 r eq_refl).
      unfold c_and. destruct (is_cond l || is_cond r); [split; assumption|]. destruct l, r; exact I.
    - cbn in E. destruct H as [H1 H2]. destruct (build dbg f) as [l| | | |]; try discriminate. destruct (build dbg g) as [r| | | |]; try discriminate.
      cbn in E. injection E as <-. specialize (IHf H1 l eq_refl). specialize (IHg H2 r eq_refl).
      unfold c_or. destruct (is_cond l || is_cond r); [split; assumption|]. destruct l, r; exact I.
  Qed.

  Definition within Z X : Prop := proper Z /\ o_le (lo X) (lo Z) = true /\ o_le (hi Z) (hi X) = true.
  Lemma within_subset Z X : within Z X -> subset Z X.
  Proof. intros (P & H1 & H2). apply (subset_iff HO); auto. Qed.
  Lemma within_refl X : proper X -> within X X.
  Proof. unfold within, proper. intros H. split; [exact H|]. clear - HO H. split; ord HO. Qed.
  Lemma mk_within (p q : O) Z X : ok p -> ok q -> o_le (lo X) p = true -> o_le q (hi X) = true -> mk p q = Ret Z -> within Z X.
  Proof. intros Hp Hq H1 H2 E. apply mk_iff in E. destruct E as [-> E]. split; [|split; assumption]. unfold proper; cbn. clear - HO Hp Hq E. ord HO. Qed.
  Lemma omin_ok (p q : O) : ok p -> ok q -> ok (omin p q).
  Proof. destruct (omin_cases p q) as [-> | ->]; auto. Qed.
  Lemma omax_ok (p q : O) : ok p -> ok q -> ok (omax p q).
  Proof. destruct (omax_cases p q) as [-> | ->]; auto. Qed.
  Lemma proper_oks X : proper X -> ok (lo X) /\ ok (hi X).
  Proof. unfold proper. intros H. clear - HO H. split; ord HO. Qed.
  Lemma aproper_oks (u : arg O) : aproper u -> ok (alower u) /\ ok (aupper u).
  Proof. unfold aproper. intros H. clear - HO H. split; ord HO. Qed.
  Lemma bind_inv {A B : Type} (m : outcome A) (k : A -> outcome B) (z : B) : bind m k = Ret z -> exists y, m = Ret y /\ k y = Ret z.
  Proof. destruct m; cbn; try discriminate. eauto. Qed.
  Lemma pred_value (v : bset) l r (p : O) : rel_exact o_lt v (op_arg l) (op_arg r) -> bcontains v true = true -> o_pred (aupper (op_arg r)) = Ret p -> ok p.
  Proof.
    intros [_ H] Hv E. apply bmember_iff in Hv. apply H in Hv. destruct Hv as (a & b & Ha & [Hb1 Hb2] & Hab).
    assert (Lt : o_lt a (aupper (op_arg r)) = true) by (clear - HO Hab Hb2; ord HO).
    destruct (pred_below HO _ _ Lt) as (q & Eq & Hq & _). rewrite E in Eq. injection Eq as <-. clear - HO Hq. ord HO.
  Qed.
  Lemma succ_value (v : bset) l r (p : O) : rel_exact o_lt v (op_arg l) (op_arg r) -> bcontains v true = true -> o_succ (alower (op_arg l)) = Ret p -> ok p.
  Proof.
    intros [_ H] Hv E. apply bmember_iff in Hv. apply H in Hv. destruct Hv as (a & b & [Ha1 Ha2] & Hb & Hab).
    assert (Lt : o_lt (alower (op_arg l)) b = true) by (clear - HO Hab Ha1; ord HO).
    destruct (succ_above HO _ _ Lt) as (q & Eq & Hq & _). rewrite E in Eq. injection Eq as <-. clear - HO Hq. ord HO.
  Qed.
  Lemma dc_within c X (cons opt : bool) Z (k : bool) : wfc c -> proper X -> c_ops (fun o => op_is x o = true -> op_arg o = Iv X) c ->
    dconstrain dbg x X c cons opt = Ret (Z, k) -> within Z X.
  Proof.
    intros W PX. revert cons opt Z k. induction c; intros cons opt Z k Oc E.
    - cbn in E. injection E as <- _. now apply within_refl.
    - cbn in E. injection E as <- _. now apply within_refl.
    - destruct W as (Wl & Wr & Wv & Wx). destruct (aproper_oks _ Wl) as [L1 L2], (aproper_oks _ Wr) as [R1 R2], (proper_oks _ PX) as [X1 X2].
      cbn [dconstrain] in E. destruct (op_is x l) eqn:El, (op_is x r) eqn:Er, (bcontains v true) eqn:Ev; cbn [andb orb negb expects bind] in E;
        try (destruct opt; cbn [expects bind] in E; try discriminate E; injection E as <- _; now apply within_refl).
      + apply bind_inv in E. destruct E as (u & _ & E). apply bind_inv in E. destruct E as (Z' & E & F). injection F as <- _.
        eapply mk_within; [| | | |exact E]; auto using omin_ok. apply (omin_l HO); auto.
      + apply bind_inv in E. destruct E as (u & _ & E). apply bind_inv in E. destruct E as (Z' & E & F). injection F as <- _.
        eapply mk_within; [| | | |exact E]; auto using omin_ok. apply (omin_l HO); auto.
      + apply bind_inv in E. destruct E as (u & _ & E). apply bind_inv in E. destruct E as (Z' & E & F). injection F as <- _.
        eapply mk_within; [| | | |exact E]; auto using omax_ok. apply (omax_r HO); auto.
    - destruct W as (Wl & Wr & Wv & Wx). destruct (aproper_oks _ Wl) as [L1 L2], (aproper_oks _ Wr) as [R1 R2], (proper_oks _ PX) as [X1 X2].
      cbn [dconstrain] in E. destruct (op_is x l) eqn:El, (op_is x r) eqn:Er, (bcontains v true) eqn:Ev; cbn [andb orb negb expects bind] in E;
        try (destruct opt; cbn [expects bind] in E; try discriminate E; injection E as <- _; now apply within_refl).
      + apply bind_inv in E. destruct E as (u & _ & E). apply bind_inv in E. destruct E as (p & Ep & E). apply bind_inv in E. destruct E as (Z' & E & F). injection F as <- _.
        assert (Hp : ok p) by (now apply (pred_value v l r p)). eapply mk_within; [| | | |exact E]; auto using omin_ok. apply (omin_l HO); auto.
      + apply bind_inv in E. destruct E as (u & _ & E). apply bind_inv in E. destruct E as (p & Ep & E). apply bind_inv in E. destruct E as (Z' & E & F). injection F as <- _.
        assert (Hp : ok p) by (now apply (pred_value v l r p)). eapply mk_within; [| | | |exact E]; auto using omin_ok. apply (omin_l HO); auto.
      + apply bind_inv in E. destruct E as (u & _ & E). apply bind_inv in E. destruct E as (p & Ep & E). apply bind_inv in E. destruct E as (Z' & E & F). injection F as <- _.
        assert (Hp : ok p) by (now apply (succ_value v l r p)). eapply mk_within; [| | | |exact E]; auto using omax_ok. apply (omax_r HO); auto.
    - destruct W as (Wl & Wr & Wv & Wx). destruct (aproper_oks _ Wl) as [L1 L2], (aproper_oks _ Wr) as [R1 R2], (proper_oks _ PX) as [X1 X2].
      cbn [dconstrain] in E. destruct Oc as [O1 O2]. destruct (op_is x l || op_is x r) eqn:Ei; [|injection E as <- _; now apply within_refl].
      destruct (bcontains v true); [|destruct opt; cbn [expects bind] in E; try discriminate E; injection E as <- _; now apply within_refl].
      cbv zeta in E. apply bind_inv in E. destruct E as (u & _ & E). apply bind_inv in E. destruct E as (Z' & E & F). injection F as <- _.
      eapply mk_within; [| | | |exact E]; auto using omax_ok, omin_ok.
      + apply orb_true_iff in Ei. destruct Ei as [Ei|Ei].
        * change (lo X) with (alower (Iv X)). rewrite <- (O1 Ei). apply (omax_l HO); auto.
        * change (lo X) with (alower (Iv X)). rewrite <- (O2 Ei). apply (omax_r HO); auto.
      + apply orb_true_iff in Ei. destruct Ei as [Ei|Ei].
        * change (hi X) with (aupper (Iv X)). rewrite <- (O1 Ei). apply (omin_l HO); auto.
        * change (hi X) with (aupper (Iv X)). rewrite <- (O2 Ei). apply (omin_r HO); auto.
    - destruct W as (Wl & Wr & Wv & Wx). destruct (aproper_oks _ Wl) as [L1 L2], (aproper_oks _ Wr) as [R1 R2], (proper_oks _ PX) as [X1 X2].
      cbn [dconstrain] in E. destruct Oc as [O1 O2]. destruct (op_is x l || op_is x r) eqn:Ei; [|injection E as <- _; now apply within_refl].
      destruct (bcontains v true); [|destruct opt; cbn [expects bind] in E; try discriminate E; injection E as <- _; now apply within_refl].
      cbv zeta in E. apply bind_inv in E. destruct E as (u & _ & E).
      destruct (o_disc O) eqn:D; [|injection E as <- _; now apply within_refl].
      assert (G : forall o, op_is x o = true -> (op_is x o = true -> op_arg o = Iv X) -> negb (o_eq (alower (op_arg o)) (aupper (op_arg o))) = true ->
                  (forall s Z', o_succ (alower (op_arg o)) = Ret s -> mk s (aupper (op_arg o)) = Ret Z' -> within Z' X)
                  /\ (forall s Z', o_pred (aupper (op_arg o)) = Ret s -> mk (alower (op_arg o)) s = Ret Z' -> within Z' X)).
      { intros o Ho Oo N. rewrite (Oo Ho) in *. cbn [alower aupper] in *.
        assert (Lt : o_lt (lo X) (hi X) = true) by (unfold proper in PX; clear - HO PX N; ord HO). split.
        - intros s Z' Es Em. destruct (succ_above HO _ _ Lt) as (q & Eq & Hq & _). rewrite Es in Eq. injection Eq as <-.
          eapply mk_within; [| | | |exact Em]; auto. clear - HO Hq. ord HO.
        - intros s Z' Es Em. destruct (pred_below HO _ _ Lt) as (q & Eq & Hq & _). rewrite Es in Eq. injection Eq as <-.
          eapply mk_within; [| | | |exact Em]; auto. clear - HO Hq. ord HO. }
      destruct (op_is x l && negb (o_eq (alower (op_arg l)) (aupper (op_arg l))) && o_eq (alower (op_arg r)) (aupper (op_arg r)) && o_eq (alower (op_arg l)) (alower (op_arg r))) eqn:C1.
      { rewrite !andb_true_iff in C1. destruct C1 as (((J & N) & _) & _). apply bind_inv in E. destruct E as (s & Es & E). apply bind_inv in E. destruct E as (Z' & E & F). injection F as <- _.
        exact (proj1 (G l J O1 N) s Z' Es E). }
      destruct (op_is x l && negb (o_eq (alower (op_arg l)) (aupper (op_arg l))) && o_eq (alower (op_arg r)) (aupper (op_arg r)) && o_eq (aupper (op_arg l)) (alower (op_arg r))) eqn:C2.
      { rewrite !andb_true_iff in C2. destruct C2 as (((J & N) & _) & _). apply bind_inv in E. destruct E as (s & Es & E). apply bind_inv in E. destruct E as (Z' & E & F). injection F as <- _.
        exact (proj2 (G l J O1 N) s Z' Es E). }
      destruct (op_is x r && negb (o_eq (alower (op_arg r)) (aupper (op_arg r))) && o_eq (alower (op_arg l)) (aupper (op_arg l)) && o_eq (alower (op_arg r)) (alower (op_arg l))) eqn:C3.
      { rewrite !andb_true_iff in C3. destruct C3 as (((J & N) & _) & _). apply bind_inv in E. destruct E as (s & Es & E). apply bind_inv in E. destruct E as (Z' & E & F). injection F as <- _.
        exact (proj1 (G r J O2 N) s Z' Es E). }
      destruct (op_is x r && negb (o_eq (alower (op_arg r)) (aupper (op_arg r))) && o_eq (alower (op_arg l)) (aupper (op_arg l)) && o_eq (aupper (op_arg r)) (alower (op_arg l))) eqn:C4.
      { rewrite !andb_true_iff in C4. destruct C4 as (((J & N) & _) & _). apply bind_inv in E. destruct E as (s & Es & E). apply bind_inv in E. destruct E as (Z' & E & F). injection F as <- _.
        exact (proj2 (G r J O2 N) s Z' Es E). }
      injection E as <- _. now apply within_refl.
    - cbn [dconstrain] in E. destruct W as (W1 & W2 & _), Oc as [O1 O2].
      apply bind_inv in E. destruct E as ([vl k1] & E1 & E). apply bind_inv in E. destruct E as ([vr k2] & E2 & E).
      specialize (IHc1 W1 _ _ _ _ O1 E1). specialize (IHc2 W2 _ _ _ _ O2 E2). destruct IHc1 as (P1 & A1 & B1), IHc2 as (P2 & A2 & B2).
      destruct (bcontains v true); [|injection E as <- _; now apply within_refl].
      apply bind_inv in E. destruct E as (u & _ & E). apply bind_inv in E. destruct E as (Z' & E3 & E). injection E as <- _.
      destruct (proper_oks _ P1), (proper_oks _ P2). eapply mk_within; [apply omax_ok| apply omin_ok| | |exact E3]; auto.
      + destruct (omax_cases (lo vl) (lo vr)) as [-> | ->]; auto.
      + destruct (omin_cases (hi vl) (hi vr)) as [-> | ->]; auto.
    - cbn [dconstrain] in E. destruct W as (W1 & W2 & _), Oc as [O1 O2].
      apply bind_inv in E. destruct E as ([vl k1] & E1 & E). apply bind_inv in E. destruct E as ([vr k2] & E2 & E).
      pose proof (IHc1 W1 _ _ _ _ O1 E1) as (P1 & A1 & B1). pose proof (IHc2 W2 _ _ _ _ O2 E2) as (P2 & A2 & B2). cbv zeta in E.
      apply bind_inv in E. destruct E as (u & _ & E).
      destruct (k1 && cpossible c1), (k2 && cpossible c2); cbn [andb] in E.
      + apply bind_inv in E. destruct E as (Z' & E3 & E). injection E as <- _.
        destruct (proper_oks _ P1), (proper_oks _ P2). eapply mk_within; [apply omin_ok| apply omax_ok| | |exact E3]; auto.
        * destruct (omin_cases (lo vl) (lo vr)) as [-> | ->]; auto.
        * destruct (omax_cases (hi vl) (hi vr)) as [-> | ->]; auto.
      + injection E as <- _. split; auto.
      + injection E as <- _. split; auto.
      + injection E as <- _. now apply within_refl.
  Qed.

  (** An object that does not occur is never marked as considered. *)
  Lemma dc_unmentioned c X (cons opt : bool) : c_ops (fun o => op_is x o = false) c ->
    dconstrain dbg x X c cons opt = FailFast \/ exists Z k, dconstrain dbg x X c cons opt = Ret (Z, k) /\ (cons = false -> k = false).
  Proof.
    revert cons opt. induction c; intros cons opt Oc; cbn [dconstrain c_ops] in *; try destruct Oc as [O1 O2].
    - right. eauto.
    - right. eauto.
    - rewrite O1, O2. cbn. right. eauto.
    - rewrite O1, O2. cbn. right. eauto.
    - rewrite O1, O2. cbn. right. eauto.
    - rewrite O1, O2. cbn. right. eauto.
    - destruct (IHc1 cons opt O1) as [E|(vl & k1 & E & K1)]; rewrite E; cbn [bind]; [now left|].
      destruct (IHc2 k1 opt O2) as [E2|(vr & k2 & E2 & K2)]; rewrite E2; cbn [bind]; [now left|].
      destruct (bcontains v true); [|right; do 2 eexists; split; [reflexivity|auto]].
      match goal with |- context [expects_debug dbg ?b] => destruct b end; destruct dbg; cbn [expects_debug expects bind]; try (now left);
        match goal with |- context [mk ?p ?q] => destruct (mk_cases p q) as [[M _]|[M _]]; rewrite M; cbn [bind] end; try (now left);
        right; do 2 eexists; (split; [reflexivity|auto]).
    - destruct (IHc1 false true O1) as [E|(vl & k1 & E & K1)]; rewrite E; cbn [bind]; [now left|].
      destruct (IHc2 false true O2) as [E2|(vr & k2 & E2 & K2)]; rewrite E2; cbn [bind]; [now left|].
      rewrite (K1 eq_refl), (K2 eq_refl). cbn [orb andb]. destruct (bcontains v true || opt); cbn; [|now left]. right. eauto.
  Qed.

  Lemma constrain_other f X : mentions x f = false -> legal f -> constrain_by dbg x X f = FailFast.
  Proof.
    intros N L. unfold constrain_by. destruct (build_ok HO dbg f L) as (c & E & _). rewrite E. cbn [bind].
    assert (Oc : c_ops (fun o => op_is x o = false) c).
    { apply (build_ops _ f); [|exact E]. clear - N. induction f as [b|s|r s t|f IH|f IHf g IHg|f IHf g IHg]; cbn in *; auto.
      - rewrite !op_is_term. apply orb_false_iff in N. exact N.
      - apply orb_false_iff in N. destruct N. auto.
      - apply orb_false_iff in N. destruct N. auto. }
    unfold constrain. destruct (dc_unmentioned c X false false Oc) as [D|(Z & k & D & K)]; rewrite D; cbn [bind]; [reflexivity|].
    now rewrite (K eq_refl).
  Qed.
  Lemma constrain_within f X Z : legal f -> proper X -> occurs_as x X f -> constrain_by dbg x X f = Ret Z -> proper Z /\ subset Z X.
  Proof.
    intros L PX Oc H. unfold constrain_by in H. destruct (build_ok HO dbg f L) as (c & E & W & _). rewrite E in H. cbn [bind] in H.
    unfold constrain in H. apply bind_inv in H. destruct H as ([Z' k] & D & H). apply bind_inv in H. destruct H as (u & _ & H). injection H as <-.
    assert (Wn : within Z' X).
    { eapply dc_within; [exact W|exact PX| |exact D]. apply (build_ops _ f); [|exact E]. clear - Oc. unfold occurs_as in Oc.
      induction f as [b|s|r s t|f IH|f IHf g IHg|f IHf g IHg]; cbn in *; auto.
      - split.
        + destruct s; cbn; [|discriminate]. intros H. apply Nat.eqb_eq in H. now rewrite (proj1 Oc H).
        + destruct t; cbn; [|discriminate]. intros H. apply Nat.eqb_eq in H. now rewrite (proj2 Oc H).
      - destruct Oc. auto.
      - destruct Oc. auto. }
    split; [apply Wn|now apply within_subset].
  Qed.

  (** ** Soundness *)
  Lemma constrain_sound f X rho : legal f -> unmixed f = true -> conjunctive (nnf true f) = true -> mentions x f = true ->
    inside rho f -> el X (rho x) -> truth rho f true -> exists Z, constrain_by dbg x X f = Ret Z /\ el Z (rho x).
  Proof.
    intros L U C M I HX T. pose proof (legal_nnf f L true) as L'. destruct (build_ok HO dbg _ L') as (c & E & _).
    destruct (conj_keep HO dbg x (nnf true f) c X rho false false L' C E) as (Z & D & K); auto.
    - now apply all_terms_nnf.
    - exact (truth_nnf HO rho f true I T true).
    - unfold constrain_by. rewrite <- (build_nnf HO dbg f L U), E. cbn [bind]. unfold constrain. rewrite D. cbn [bind orb].
      rewrite mentions_nnf, M. cbn. eauto.
  Qed.
  Lemma constrain_sound_tame f X rho : legal f -> unmixed f = true -> tame x false (nnf true f) -> mentions x f = true -> occurs_as x X f ->
    inside rho f -> truth rho f true -> exists Z, constrain_by dbg x X f = Ret Z /\ el Z (rho x).
  Proof.
    intros L U C M Oc I T. pose proof (legal_nnf f L true) as L'. destruct (build_ok HO dbg _ L') as (c & E & _).
    pose proof (occurs_el x X rho f Oc I M) as HX.
    destruct (tame_keep HO dbg x (nnf true f) c X false L' (el_proper HO X _ HX) C) as [K _]; [now apply all_terms_nnf|exact E|].
    destruct (K rho false false) as (Z & D & Kz); auto.
    - now apply all_terms_nnf.
    - exact (truth_nnf HO rho f true I T true).
    - unfold constrain_by. rewrite <- (build_nnf HO dbg f L U), E. cbn [bind]. unfold constrain. rewrite D. cbn [bind orb].
      rewrite mentions_nnf, M. cbn. eauto.
  Qed.

  (** ** One comparison: fail fast exactly if impossible *)
  Lemma constrain_rel (R : rel) (s t : term O) X : legal (GRel R s t) -> proper X -> mentions x (GRel R s t) = true -> occurs_as x X (GRel R s t) ->
    (possible (GRel R s t) true -> exists Z, constrain_by dbg x X (GRel R s t) = Ret Z) /\
    (~ possible (GRel R s t) true -> constrain_by dbg x X (GRel R s t) = FailFast).
  Proof.
    intros L PX M Oc. unfold constrain_by. rewrite (rel_build HO dbg R s t L). cbn [bind]. unfold constrain. split; intros P.
    - apply possible_rel in P. destruct P as (u & v & Hu & Hv & Hr). destruct Oc as [O1 O2].
      assert (Xu : tmentions x s = true -> el X u).
      { destruct s; [|discriminate]. cbn. intros H. apply Nat.eqb_eq in H. now rewrite <- (O1 H). }
      assert (Xv : tmentions x t = true -> el X v).
      { destruct t; [|discriminate]. cbn. intros H. apply Nat.eqb_eq in H. now rewrite <- (O2 H). }
      destruct (rel_keep HO dbg x R s t X u v false false L Hu Hv Hr Xu Xv) as (Z & E & _). rewrite E. cbn [bind orb]. rewrite M. cbn. eauto.
    - rewrite (rel_impossible HO dbg x R s t X false false L P), M. reflexivity.
  Qed.
End Cond.
