(** Conditions and [if_else] in expressions that mention each variable at most once (C82). *)
From Coq Require Import Bool List Arith Lia.
From Verif Require Import Outcome SetModel Spec SetProofs SetProofs2 Num NumLaws IntervalModel IvlSpec IvlProofs ArithProofs ArithProofs2 ArithProofs3 ArithProofs4 ArithProofs5
  ConstrainModel CondSpec ConstrainProofs ConstrainProofs2 ConstrainProofs3 ConstrainProofs4 ConstrainProofs5 ConstrainWrap
  MathModel FloatMathProofs MathSpec MathProofs MonoProofs MathWrap ValueTypes LangModel LangSpec LangProofs LangProofs2 IsoSpec IsoProofs IsoProofs2 IsoProofs4 UseSpec UseProofs ChoiceSpec.
Import ListNotations.

Section Choice.
  Context {N : num} {M : option (math N)} (HP : prog_type N M) (dbg : bool).
  Let HN := prog_laws N M HP.
  Let HO := nl_ord N HN.

  (** ** Points *)
  Definition same_on (l : list nat) (xs ys : list N) : Prop := forall i, In i l -> nth_error xs i = nth_error ys i.
  Lemma same_app l k xs ys : same_on (l ++ k) xs ys -> same_on l xs ys /\ same_on k xs ys.
  Proof. intros H. split; intros i Hi; apply H; apply in_or_app; auto. Qed.
  Lemma evaluate_same xs ys :
    (forall e : expr N, same_on (evars e) xs ys -> seval M dbg xs e = seval M dbg ys e)
    /\ (forall t : test N, same_on (tvars t) xs ys -> stest M dbg xs t = stest M dbg ys t).
  Proof.
    apply expr_test_ind.
    - intros i K. cbn. unfold slookup. now rewrite (K i (or_introl eq_refl)).
    - reflexivity.
    - intros u e IH K. rewrite !seval_un. now rewrite IH.
    - intros b e IHe f IHf K. cbn [evars] in K. apply same_app in K as [K1 K2]. rewrite !seval_bin. now rewrite IHe, IHf.
    - intros t IHt e IHe f IHf K. cbn [evars] in K. apply same_app in K as [K1 K2]. apply same_app in K2 as [K2 K3]. rewrite !seval_if. now rewrite IHt, IHe, IHf.
    - intros r e IHe f IHf K. cbn [tvars] in K. apply same_app in K as [K1 K2]. rewrite !stest_rel. now rewrite IHe, IHf.
    - intros t IH K. rewrite !stest_not. now rewrite IH.
    - intros t IHt u IHu K. cbn [tvars] in K. apply same_app in K as [K1 K2]. rewrite !stest_and. now rewrite IHt, IHu.
    - intros t IHt u IHu K. cbn [tvars] in K. apply same_app in K as [K1 K2]. rewrite !stest_or. now rewrite IHt, IHu.
  Qed.
  Lemma together (Xs : list (ivl N)) (l k : list nat) xs ys : NoDup (l ++ k) -> Forall2 el Xs xs -> Forall2 el Xs ys -> exists zs, Forall2 el Xs zs /\ same_on l zs xs /\ same_on k zs ys.
  Proof.
    intros D Hx Hy. destruct (pick_points (fun i => if in_dec Nat.eq_dec i l then true else false) Xs xs ys Hx Hy) as (zs & Hz & Ez).
    exists zs. split; [exact Hz|]. split; intros i Hi; rewrite Ez; destruct (in_dec Nat.eq_dec i l) as [Q|Q]; try reflexivity; [contradiction|]. exfalso.
    clear - D Hi Q. induction l as [|j l IH]; [destruct Q|]. cbn in D. inversion D as [|? ? A B]; subst. destruct Q as [-> |Q]; [apply A; apply in_or_app; auto|auto].
  Qed.

  (** ** Elements of operands *)
  Lemma tel_for (e : expr N) (x : arg N) p : tel (term_for (operand_for e x)) p <-> ael x p.
  Proof. destruct e; try reflexivity. destruct x; reflexivity. Qed.
  Lemma rel_form_cases r (e f : expr N) (x y : arg N) : (exists v w, x = Sc v /\ y = Sc w /\ rel_form r (operand_for e x) (operand_for f y) = GBool (rel_holds r v w))
    \/ rel_form r (operand_for e x) (operand_for f y) = GRel r (term_for (operand_for e x)) (term_for (operand_for f y)).
  Proof.
    unfold rel_form. destruct (operand_for e x) as [i X|[p|X]] eqn:Oe; auto. destruct (operand_for f y) as [j Y|[q|Y]] eqn:Of; auto.
    left. exists p, q. split; [destruct e, x; inversion Oe; reflexivity|]. split; [destruct f, y; inversion Of; reflexivity|reflexivity].
  Qed.
  (** Whether a comparison other than an equality can be true (or false) is decided by the end points. *)
  Lemma rel_ends r (x y : arg N) p q b : match r with REq | RNe => False | _ => True end -> aproper x -> aproper y -> ael x p -> ael y q -> rel_holds r p q = b ->
    exists p' q', ends x p' /\ ends y q' /\ forall v w, o_eq v p' = true -> o_eq w q' = true -> rel_holds r v w = b.
  Proof.
    intros R Px Py [P1 P2] [Q1 Q2] E.
    assert (xl : ends x (alower x)) by now left. assert (xu : ends x (aupper x)) by now right. assert (yl : ends y (alower y)) by now left. assert (yu : ends y (aupper y)) by now right.
    destruct r; try contradiction; destruct b; cbn [rel_holds] in *.
    1,3: exists (alower x), (aupper y). 3,4: exists (aupper x), (alower y). 5,7: exists (aupper x), (alower y). 7,8: exists (alower x), (aupper y).
    all: (split; [assumption|split; [assumption|]]); intros v w Ev Ew; clear - HO P1 P2 Q1 Q2 E Ev Ew; ord HO.
  Qed.

  (** ** The induction *)
  Lemma choice_exact (Xs : list (ivl N)) (PXs : Forall proper Xs) :
    (forall e : expr N, eplain e = true -> NoDup (evars e) -> eclean M dbg (map Iv Xs) e -> efuns (monotone M) e -> forall a, ieval M dbg (map Iv Xs) e = Ret a ->
      attained (M := M) dbg Xs e (alower a) /\ attained (M := M) dbg Xs e (aupper a))
    /\ (forall t : test N, tplain t = true -> NoDup (tvars t) -> tclean M dbg (map Iv Xs) t -> tfuns (monotone M) t -> forall c, itest M dbg (map Iv Xs) t = Ret c ->
      forall b, possible (form (M := M) dbg (map Iv Xs) t) b -> tvalues M dbg Xs t b).
  Proof.
    assert (Pt : exists xs, Forall2 el Xs xs) by (exists (map lo Xs); clear - PXs HO; induction PXs; constructor; auto; apply (el_lower HO); assumption).
    assert (Sc1 : forall (e : expr N) c, eclean M dbg (map Iv Xs) e -> efuns (monotone M) e -> ieval M dbg (map Iv Xs) e = Ret (Sc c) -> attained (M := M) dbg Xs e c).
    { intros e0 c Cl Fu E. destruct Pt as (xs & Hx). destruct (expression_included HP dbg Xs xs e0 _ Hx Cl Fu E) as (v & Ev & ->). exists c. split; [exists xs; auto|].
      pose proof (eclean_number dbg (map Iv Xs) e0 _ Cl E) as P. unfold aproper in P. cbn in P. clear - HO P. ord HO. }
    assert (At : forall i X x, nth_error Xs i = Some X -> el X x -> exists xs, Forall2 el Xs xs /\ nth_error xs i = Some x).
    { intros i X x K Hx. clear - K Hx PXs HO. revert i K. induction PXs as [|Y Ys PY PYs IH]; intros i K; [destruct i; discriminate|].
      assert (Q : exists ys, Forall2 el Ys ys) by (exists (map lo Ys); clear - PYs HO; induction PYs; constructor; auto; apply (el_lower HO); assumption).
      destruct i as [|i].
      - cbn in K. injection K as ->. destruct Q as (ys & Hy). exists (x :: ys). split; [now constructor|reflexivity].
      - destruct (IH i K) as (ys & Hy & Ey). exists (lo Y :: ys). split; [constructor; [now apply (el_lower HO)|exact Hy]|exact Ey]. }
    apply expr_test_ind.
    - intros i Pl Su Cl Fu a E. cbn in E. unfold ilookup in E. rewrite nth_error_map in E. destruct (nth_error Xs i) as [X|] eqn:K; [|discriminate]. injection E as <-. cbn [alower aupper].
      assert (G : forall w, el X w -> attained (M := M) dbg Xs (EVar i) w).
      { intros w Hw. destruct (At i X w K Hw) as (xs & Hx & Ex). exists w. split; [exists xs; split; [exact Hx|]; cbn; unfold slookup; now rewrite Ex|destruct Hw as [Hw _]; clear - HO Hw; ord HO]. }
      rewrite Forall_forall in PXs. pose proof (PXs X (nth_error_In _ _ K)) as PX. split; apply G; [now apply (el_lower HO)|now apply (el_upper HO)].
    - intros v Pl Su Cl Fu a E. injection E as <-. split; apply (Sc1 (ELit v) v Cl Fu eq_refl).
    - intros u e IH Pl Su Cl Fu a E. pose proof (eclean_number dbg _ (EUn u e) a Cl E) as Pa. destruct a as [c|Z]; [split; exact (Sc1 _ c Cl Fu E)|].
      destruct Cl as (_ & Cl & Dm), Fu as [Mo Fu]. rewrite ieval_un in E. apply bind_inv in E as (x & Ex & E). pose proof (eclean_number dbg _ e x Cl Ex) as Px. specialize (Dm x Ex).
      destruct x as [c|X]; cbn [lift1] in E; apply bind_inv in E as (Z1 & E & K); [discriminate|]. injection K as ->. cbn [alower aupper].
      assert (Q : (steady u = true /\ eplain e = true) \/ ((u = USquare \/ u = UAbs) /\ exists i, e = EVar i)).
      { cbn [eplain] in Pl. destruct u; try (left; split; [reflexivity|exact Pl]); right; (split; [auto|]); destruct e; try discriminate Pl; eauto. }
      destruct Q as [[St Ple]|[Su' (i & ->)]].
      + destruct (IH Ple Su Cl Fu _ Ex) as [A B]. destruct (iun_corner dbg u X Z St E) as [C1 C2].
        assert (G : forall z, corner1 (M := M) dbg u X z -> attained (M := M) dbg Xs (EUn u e) z).
        { intros z (p & Hp & Ep). assert (At' : attained (M := M) dbg Xs e p) by (destruct Hp as [-> | ->]; assumption). destruct At' as (v & (xs & Hx & Ev) & Eq).
          destruct (sun_eq HP dbg u X Z p v z St Px Dm Mo E (ends_el HP (Iv X) p Px Hp) Eq Ep) as (z' & Ez & Eqz). exists z'. split; [|exact Eqz]. exists xs. split; [exact Hx|]. now rewrite seval_un, Ev. }
        split; now apply G.
      + assert (H : is_hull (img1 (sun M dbg u) X) Z) by (destruct Su' as [-> | ->]; [exact (proj2 (proj2 (square_ok HN dbg X Px) Z E))|exact (proj2 (proj2 (iabs_ok HN dbg X Px) Z E))]).
        assert (G : forall z, (exists v, img1 (sun M dbg u) X v /\ o_eq v z = true) -> attained (M := M) dbg Xs (EUn u (EVar i)) z).
        { intros z (v & (x & Hx & Ev) & Eq). exists v. split; [|exact Eq].
          cbn in Ex. unfold ilookup in Ex. rewrite nth_error_map in Ex. destruct (nth_error Xs i) as [X0|] eqn:K; [|discriminate]. injection Ex as ->.
          destruct (At i X x K Hx) as (xs & Hxs & Exs). exists xs. split; [exact Hxs|]. rewrite seval_un. cbn [seval]. unfold slookup. now rewrite Exs. }
        destruct H as (_ & H1 & H2). split; apply G; assumption.
    - intros b e IHe f IHf Pl Su Cl Fu a E. pose proof (eclean_number dbg _ (EBin b e f) a Cl E) as Pa. destruct a as [c|Z]; [split; exact (Sc1 _ c Cl Fu E)|].
      destruct Cl as (_ & Cle & Clf & Dm), Fu as [Fe Ff]. cbn [eplain] in Pl. apply andb_prop in Pl as [Ple Plf]. cbn [evars] in Su.
      rewrite ieval_bin in E. apply bind_inv in E as (x & Ex & E). apply bind_inv in E as (y & Ey & E). specialize (Dm y Ey).
      pose proof (eclean_number dbg _ e x Cle Ex) as Px. pose proof (eclean_number dbg _ f y Clf Ey) as Py.
      assert (C : ibin dbg b x y = Ret Z) by (destruct x, y; cbn [lift2] in E; apply bind_inv in E as (r & E & K); [discriminate| | |]; now injection K as <-).
      destruct (IHe Ple (nodup_l _ _ Su) Cle Fe x Ex) as [A1 A2], (IHf Plf (nodup_r _ _ Su) Clf Ff y Ey) as [B1 B2]. destruct (ibin_corner HP dbg b x y Z Py Dm C Pa) as [C1 C2].
      assert (G : forall z, corner b x y z -> attained (M := M) dbg Xs (EBin b e f) z).
      { intros z (p & q & Hp & Hq & Ez). assert (Ap : attained (M := M) dbg Xs e p) by (destruct Hp as [-> | ->]; assumption). assert (Aq : attained (M := M) dbg Xs f q) by (destruct Hq as [-> | ->]; assumption).
        destruct Ap as (v & (xs & Hx & E1) & Ev), Aq as (w & (ys & Hy & E2) & Ew). destruct (together Xs _ _ xs ys Su Hx Hy) as (zs & Hz & S1 & S2).
        destruct (sbin_eq HP dbg b x y Z p q v w z Px Py Dm C Pa (ends_el HP x p Px Hp) (ends_el HP y q Py Hq) Ev Ew Ez) as (z' & Ez' & Eq). exists z'. split; [|exact Eq].
        exists zs. split; [exact Hz|]. now rewrite seval_bin, (proj1 (evaluate_same _ _) _ S1), (proj1 (evaluate_same _ _) _ S2), E1, E2. }
      split; now apply G.
    - intros t IHt e IHe f IHf Pl Su Cl Fu a E. pose proof (eclean_number dbg _ (EIf t e f) a Cl E) as Pa.
      destruct Cl as (_ & Clt & Cle & Clf), Fu as (Ft & Fe & Ff). cbn [eplain] in Pl. apply andb_prop in Pl as [Plt Pl]. apply andb_prop in Pl as [Ple Plf]. cbn [evars] in Su.
      rewrite ieval_if in E. apply bind_inv in E as (c & Ec & E). apply bind_inv in E as (x & Ex & E). apply bind_inv in E as (y & Ey & E).
      pose proof (eclean_number dbg _ e x Cle Ex) as Px. pose proof (eclean_number dbg _ f y Clf Ey) as Py.
      destruct (IHe Ple (nodup_l _ _ (nodup_r _ _ Su)) Cle Fe x Ex) as [A1 A2], (IHf Plf (nodup_r _ _ (nodup_r _ _ Su)) Clf Ff y Ey) as [B1 B2].
      destruct Pt as (xs0 & Hx0). pose proof (proj2 (eval_test_ok HP dbg (map Iv Xs) xs0 (inputs_stand Xs xs0 Hx0)) t Clt Ft c Ec) as T. pose proof T as [L (b0 & Eb0 & _)].
      pose proof (test_member HP dbg _ _ t c b0 T Ec Eb0) as Mb0.
      assert (Tv : forall b, member (cset c) b -> tvalues M dbg Xs t b).
      { intros b Hb. apply (IHt Plt (nodup_l _ _ Su) Clt Ft c Ec). destruct (build_ok HO dbg _ L) as (c' & E' & _ & Mc). rewrite (itest_build dbg _ t c Ec) in E'. injection E' as <-. now apply Mc. }
      assert (G : forall (b : bool) v w p, member (cset c) b -> values M dbg Xs e v -> values M dbg Xs f w -> o_eq (if b then v else w) p = true -> attained (M := M) dbg Xs (EIf t e f) p).
      { intros b v w p Hb (xs & Hx & E1) (ys & Hy & E2) Eq. destruct (Tv b Hb) as (us & Hu & Eu).
        destruct (together Xs _ _ xs ys (nodup_r _ _ Su) Hx Hy) as (zs & Hz & S1 & S2). destruct (together Xs _ _ us zs Su Hu Hz) as (ws & Hw & S3 & S4). apply same_app in S4 as [S4 S5].
        exists (if b then v else w). split; [|exact Eq]. exists ws. split; [exact Hw|].
        rewrite seval_if, (proj2 (evaluate_same _ _) _ S3), (proj1 (evaluate_same _ _) _ S4), (proj1 (evaluate_same _ _) _ S5), (proj1 (evaluate_same _ _) _ S1), (proj1 (evaluate_same _ _) _ S2), Eu, E1, E2.
        now destruct b. }
      assert (Gt : forall p, member (cset c) true -> attained (M := M) dbg Xs e p -> attained (M := M) dbg Xs (EIf t e f) p).
      { intros p Hb (v & Hv & Eq). destruct B1 as (w & Hw & _). exact (G true v w p Hb Hv Hw Eq). }
      assert (Gf : forall p, member (cset c) false -> attained (M := M) dbg Xs f p -> attained (M := M) dbg Xs (EIf t e f) p).
      { intros p Hb (w & Hw & Eq). destruct A1 as (v & Hv & _). exact (G false v w p Hb Hv Hw Eq). }
      assert (D : forall b, cset c = bset_of b -> member (cset c) b) by (intros b ->; now apply bset_of_member).
      assert (I : forall R, iif_else (cset c) (as_ivl x) (as_ivl y) = Ret R -> attained (M := M) dbg Xs (EIf t e f) (lo R) /\ attained (M := M) dbg Xs (EIf t e f) (hi R)).
      { intros R ER. destruct (if_else_hull HN (cset c) (as_ivl x) (as_ivl y) (as_ivl_proper x Px) (as_ivl_proper y Py)) as (Z & EZ & K & _). rewrite ER in EZ. injection EZ as <-.
        destruct (K (ex_intro _ b0 Mb0)) as (K0 & (v & Hv & Ev) & (w & Hw & Ew)).
        assert (Bx : lo (as_ivl x) = alower x /\ hi (as_ivl x) = aupper x) by (destruct x; auto). assert (By : lo (as_ivl y) = alower y /\ hi (as_ivl y) = aupper y) by (destruct y; auto).
        assert (Mv : forall (b : bool) (X : ivl N) p q, o_eq p q = true -> attained (M := M) dbg Xs (EIf t e f) p -> attained (M := M) dbg Xs (EIf t e f) q).
        { intros b X p q Eq (s & Hs & Es). exists s. split; [exact Hs|]. clear - HO Eq Es. ord HO. }
        pose proof (as_ivl_proper x Px) as Qx. pose proof (as_ivl_proper y Py) as Qy.
        split.
        - destruct Hv as [[Hb Hv]|[Hb Hv]].
          + destruct (K0 (lo (as_ivl x)) (or_introl (conj Hb (el_lower HO _ Qx)))) as [K1 _]. apply (Mv true (as_ivl x) (lo (as_ivl x))); [destruct Hv as [Hv _]; clear - HO K1 Hv Ev; ord HO|].
            apply Gt; [exact Hb|]. now rewrite (proj1 Bx).
          + destruct (K0 (lo (as_ivl y)) (or_intror (conj Hb (el_lower HO _ Qy)))) as [K1 _]. apply (Mv true (as_ivl x) (lo (as_ivl y))); [destruct Hv as [Hv _]; clear - HO K1 Hv Ev; ord HO|].
            apply Gf; [exact Hb|]. now rewrite (proj1 By).
        - destruct Hw as [[Hb Hw]|[Hb Hw]].
          + destruct (K0 (hi (as_ivl x)) (or_introl (conj Hb (el_upper HO _ Qx)))) as [_ K1]. apply (Mv true (as_ivl x) (hi (as_ivl x))); [destruct Hw as [_ Hw]; clear - HO K1 Hw Ew; ord HO|].
            apply Gt; [exact Hb|]. now rewrite (proj2 Bx).
          + destruct (K0 (hi (as_ivl y)) (or_intror (conj Hb (el_upper HO _ Qy)))) as [_ K1]. apply (Mv true (as_ivl x) (hi (as_ivl y))); [destruct Hw as [_ Hw]; clear - HO K1 Hw Ew; ord HO|].
            apply Gf; [exact Hb|]. now rewrite (proj2 By). }
      assert (S : forall d, c = CBool d -> a = if_else_b d x y -> attained (M := M) dbg Xs (EIf t e f) (alower a) /\ attained (M := M) dbg Xs (EIf t e f) (aupper a)).
      { intros d -> ->. specialize (D d eq_refl). destruct d; cbn [if_else_b]; split; [apply Gt|apply Gt|apply Gf|apply Gf]; auto. }
      destruct c, x as [p|X], y as [q|Y]; cbn [lift_if] in E; try (injection E as <-; apply (S _ eq_refl eq_refl)); apply bind_inv in E as (R & E & K); injection K as <-; exact (I R E).
    - intros r e IHe f IHf Pl Su [Cle Clf] [Fe Ff] c E b Po. rewrite itest_rel in E. apply bind_inv in E as (x & Ex & E). apply bind_inv in E as (y & Ey & E).
      cbn [form] in Po. rewrite Ex, Ey in Po. cbn [tvars] in Su.
      assert (R : match r with REq | RNe => False | _ => True end /\ eplain e = true /\ eplain f = true) by (cbn [tplain] in Pl; destruct r; try discriminate Pl; apply andb_prop in Pl; tauto).
      destruct R as (R & Ple & Plf).
      pose proof (eclean_number dbg _ e x Cle Ex) as Px. pose proof (eclean_number dbg _ f y Clf Ey) as Py.
      destruct (IHe Ple (nodup_l _ _ Su) Cle Fe x Ex) as [A1 A2], (IHf Plf (nodup_r _ _ Su) Clf Ff y Ey) as [B1 B2].
      destruct (rel_form_cases r e f x y) as [(v & w & -> & -> & Q)|Q]; rewrite Q in Po.
      + inversion Po; subst. destruct Pt as (xs & Hx). exists xs. split; [exact Hx|].
        destruct (expression_included HP dbg Xs xs e _ Hx Cle Fe Ex) as (v' & Ev & ->), (expression_included HP dbg Xs xs f _ Hx Clf Ff Ey) as (w' & Ew & ->). now rewrite stest_rel, Ev, Ew.
      + apply possible_rel in Po as (p & q & Hp & Hq & Er). apply tel_for in Hp, Hq. destruct (rel_ends r x y p q b R Px Py Hp Hq Er) as (p' & q' & Ep & Eq & K).
        assert (Ap : attained (M := M) dbg Xs e p') by (destruct Ep as [-> | ->]; assumption). assert (Aq : attained (M := M) dbg Xs f q') by (destruct Eq as [-> | ->]; assumption).
        destruct Ap as (v & (xs & Hx & E1) & Ev), Aq as (w & (ys & Hy & E2) & Ew). destruct (together Xs _ _ xs ys Su Hx Hy) as (zs & Hz & S1 & S2).
        exists zs. split; [exact Hz|]. rewrite stest_rel, (proj1 (evaluate_same _ _) _ S1), (proj1 (evaluate_same _ _) _ S2), E1, E2. cbn [bind]. f_equal. now apply K.
    - intros t IH Pl Su Cl Fu c E b Po. rewrite itest_not in E. apply bind_inv in E as (d & Ed & E). cbn [form] in Po. apply possible_not in Po. destruct (IH Pl Su Cl Fu d Ed _ Po) as (xs & Hx & Et).
      exists xs. split; [exact Hx|]. rewrite stest_not, Et. cbn [bind]. now rewrite negb_involutive.
    - intros t IHt u IHu Pl Su [Clt Clu] [Ft Fu] c E b Po. rewrite itest_and in E. apply bind_inv in E as (d & Ed & E). apply bind_inv in E as (d' & Ed' & E). cbn [form] in Po. cbn [tplain] in Pl. apply andb_prop in Pl as [Plt Plu]. cbn [tvars] in Su.
      apply possible_and in Po as (p & q & Pp & Pq & <-). destruct (IHt Plt (nodup_l _ _ Su) Clt Ft d Ed p Pp) as (xs & Hx & E1), (IHu Plu (nodup_r _ _ Su) Clu Fu d' Ed' q Pq) as (ys & Hy & E2).
      destruct (together Xs _ _ xs ys Su Hx Hy) as (zs & Hz & S1 & S2). exists zs. split; [exact Hz|]. now rewrite stest_and, (proj2 (evaluate_same _ _) _ S1), (proj2 (evaluate_same _ _) _ S2), E1, E2.
    - intros t IHt u IHu Pl Su [Clt Clu] [Ft Fu] c E b Po. rewrite itest_or in E. apply bind_inv in E as (d & Ed & E). apply bind_inv in E as (d' & Ed' & E). cbn [form] in Po. cbn [tplain] in Pl. apply andb_prop in Pl as [Plt Plu]. cbn [tvars] in Su.
      apply possible_or in Po as (p & q & Pp & Pq & <-). destruct (IHt Plt (nodup_l _ _ Su) Clt Ft d Ed p Pp) as (xs & Hx & E1), (IHu Plu (nodup_r _ _ Su) Clu Fu d' Ed' q Pq) as (ys & Hy & E2).
      destruct (together Xs _ _ xs ys Su Hx Hy) as (zs & Hz & S1 & S2). exists zs. split; [exact Hz|]. now rewrite stest_or, (proj2 (evaluate_same _ _) _ S1), (proj2 (evaluate_same _ _) _ S2), E1, E2.
  Qed.

  Lemma test_exact (Xs : list (ivl N)) (t : test N) c : Forall proper Xs -> tplain t = true -> NoDup (tvars t) -> tclean M dbg (map Iv Xs) t -> tfuns (monotone M) t -> itest M dbg (map Iv Xs) t = Ret c ->
    forall b : bool, member (cset c) b <-> tvalues M dbg Xs t b.
  Proof.
    intros P Pl Su Cl Fu E b. split.
    - intros Hb. apply (proj2 (choice_exact Xs P) t Pl Su Cl Fu c E).
      assert (Pt : exists xs, Forall2 el Xs xs) by (exists (map lo Xs); clear - P HO; induction P; constructor; auto; apply (el_lower HO); assumption). destruct Pt as (xs & Hx).
      destruct (proj2 (eval_test_ok HP dbg (map Iv Xs) xs (inputs_stand Xs xs Hx)) t Cl Fu c E) as [L _].
      destruct (build_ok HO dbg _ L) as (c' & E' & _ & Mc). rewrite (itest_build dbg _ t c E) in E'. injection E' as <-. now apply Mc.
    - intros (xs & Hx & Eb). destruct (test_included HP dbg Xs xs t c Hx Cl Fu E) as (b' & Eb' & Hb). rewrite Eb in Eb'. injection Eb' as <-. exact Hb.
  Qed.
  Lemma choice_bounds (Xs : list (ivl N)) (e : expr N) a : Forall proper Xs -> eplain e = true -> NoDup (evars e) -> eclean M dbg (map Iv Xs) e -> efuns (monotone M) e -> ieval M dbg (map Iv Xs) e = Ret a ->
    (forall v, values M dbg Xs e v -> ael a v)
    /\ (exists v, values M dbg Xs e v /\ o_eq v (alower a) = true) /\ (exists v, values M dbg Xs e v /\ o_eq v (aupper a) = true).
  Proof.
    intros P Pl Su Cl Fu E. split; [|exact (proj1 (choice_exact Xs P) e Pl Su Cl Fu a E)]. intros v (xs & Hx & Ev).
    destruct (expression_included HP dbg Xs xs e a Hx Cl Fu E) as (w & Ew & Hw). rewrite Ev in Ew. injection Ew as <-.
    destruct a as [c|Z]; [|exact Hw]. subst v. pose proof (eclean_number dbg (map Iv Xs) e _ Cl E) as Q. split; exact Q.
  Qed.
End Choice.
