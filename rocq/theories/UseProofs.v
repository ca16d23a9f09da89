(** Expressions that mention each variable at most once: the interval result is the hull of the values. *)
From Coq Require Import Bool List Arith Lia.
From Verif Require Import Outcome SetModel Spec SetProofs SetProofs2 Num NumLaws IntervalModel IvlSpec IvlProofs ArithProofs ArithProofs2 ArithProofs3 ArithProofs4 ArithProofs5
  ConstrainModel CondSpec ConstrainProofs ConstrainProofs2 ConstrainProofs3 ConstrainProofs4 ConstrainProofs5 ConstrainWrap
  MathModel FloatMathProofs MathSpec MathProofs MonoProofs MathWrap ValueTypes LangModel LangSpec LangProofs LangProofs2 IsoSpec IsoProofs IsoProofs2 IsoProofs4 UseSpec.
Import ListNotations.

Section Use.
  Context {N : num} {M : option (math N)} (HP : prog_type N M) (dbg : bool).
  Let HN := prog_laws N M HP.
  Let HO := nl_ord N HN.

  (** ** End points *)
  Definition ends (x : arg N) (p : N) : Prop := p = alower x \/ p = aupper x.
  Lemma mk_inv (l u : N) Z : mk l u = Ret Z -> Z = Ivl l u.
  Proof. unfold mk. intros E. apply bind_inv in E as (t & _ & E). now injection E as <-. Qed.
  Lemma nan_interval_proper (Z : ivl N) : n_float N = true -> nan_interval = Ret Z -> ~ proper Z.
  Proof. intros F E P. apply mk_inv in E. subst Z. unfold proper in P. cbn in P. apply (nl_nan N HN F). exact P. Qed.
  Lemma omin_either (a b : N) : omin a b = a \/ omin a b = b. Proof. unfold omin. destruct (o_lt b a); auto. Qed.
  Lemma omax_either (a b : N) : omax a b = a \/ omax a b = b. Proof. unfold omax. destruct (o_lt a b); auto. Qed.
  Lemma hull2_ends (P : N -> Prop) v1 v2 Z : P v1 -> P v2 -> hull2 v1 v2 = Ret Z -> P (lo Z) /\ P (hi Z).
  Proof. intros A B E. apply mk_inv in E. subst Z. cbn. split; [destruct (omin_either v1 v2) as [-> | ->]|destruct (omax_either v1 v2) as [-> | ->]]; assumption. Qed.
  Lemma hull4_ends (P : N -> Prop) v1 v2 v3 v4 Z : P v1 -> P v2 -> P v3 -> P v4 -> hull4 v1 v2 v3 v4 = Ret Z -> P (lo Z) /\ P (hi Z).
  Proof.
    intros A B C D E. apply mk_inv in E. subst Z. cbn. split.
    - destruct (omin_either (omin v1 v2) (omin v3 v4)) as [-> | ->]; [destruct (omin_either v1 v2) as [-> | ->]|destruct (omin_either v3 v4) as [-> | ->]]; assumption.
    - destruct (omax_either (omax v1 v2) (omax v3 v4)) as [-> | ->]; [destruct (omax_either v1 v2) as [-> | ->]|destruct (omax_either v3 v4) as [-> | ->]]; assumption.
  Qed.

  Definition corner (b : binop) (x y : arg N) (z : N) : Prop := exists p q, ends x p /\ ends y q /\ sbin b p q = Ret z.
  Ltac bi E := let t := fresh "t" in let H := fresh "H" in apply bind_inv in E as (t & H & E).
  Lemma ibin_corner b (x y : arg N) Z : aproper y -> domain2 b y -> ibin dbg b x y = Ret Z -> proper Z -> corner b x y (lo Z) /\ corner b x y (hi Z).
  Proof.
    intros Py D E PZ.
    assert (G : forall p q z, ends x p -> ends y q -> sbin b p q = Ret z -> corner b x y z) by (intros p q z A B C; exists p, q; auto).
    assert (xl : ends x (alower x)) by now left. assert (xu : ends x (aupper x)) by now right. assert (yl : ends y (alower y)) by now left. assert (yu : ends y (aupper y)) by now right.
    assert (Nn : forall c, n_float N && c = true -> nan_interval = Ret Z -> False) by (intros c K F; apply andb_prop in K as [K _]; exact (nan_interval_proper Z K F PZ)).
    assert (Nf : n_float N = true -> nan_interval = Ret Z -> False) by (intros K F; exact (nan_interval_proper Z K F PZ)).
    destruct b; cbn [ibin] in E.
    - unfold iadd in E. bi E. destruct (n_float N && _) eqn:F in E; [destruct (Nn _ F E)|]. bi E. bi E. apply mk_inv in E. subst Z. cbn. eauto.
    - unfold isub in E. bi E. destruct (n_float N && _) eqn:F in E; [destruct (Nn _ F E)|]. bi E. bi E. apply mk_inv in E. subst Z. cbn. eauto.
    - unfold imul in E. bi E. destruct (n_float N && _) eqn:F in E; [destruct (Nn _ F E)|].
      destruct x as [a|X], y as [c|Y]; cbn [alower aupper] in *; bi E; bi E; try (refine (hull2_ends _ _ _ Z _ _ E); (eapply G; [| |eassumption]; assumption)).
      bi E. bi E. refine (hull4_ends _ _ _ _ _ Z _ _ _ _ E); (eapply G; [| |eassumption]; assumption).
    - assert (Z0 : o_lt (alower y) n_zero = true -> o_lt n_zero (aupper y) = true -> False).
      { intros A B. apply D. exists n_zero. split; [split; clear - HO A B; ord HO|unfold is_zero; clear - HO A; ord HO]. }
      unfold idiv in E. bi E. destruct x as [a|X]; [|destruct y as [c|Y]]; cbn [alower aupper] in *.
      + destruct (n_float N) eqn:F.
        * destruct (_ && _) in E; [destruct (Nf eq_refl E)|]. destruct (_ && _) in E; [destruct (Nf eq_refl E)|]. destruct (_ && _ && _) eqn:K in E.
          -- apply andb_prop in K as [K K2]. apply andb_prop in K as [_ K1]. destruct (Z0 K1 K2).
          -- bi E. bi E. refine (hull2_ends _ _ _ Z _ _ E); (eapply G; [| |eassumption]; assumption).
        * destruct (_ && _) in E; [discriminate|]. bi E. bi E. refine (hull2_ends _ _ _ Z _ _ E); (eapply G; [| |eassumption]; assumption).
      + destruct (n_float N && _) eqn:F in E; [destruct (Nn _ F E)|]. destruct (n_float N && _) eqn:F' in E; [destruct (Nn _ F' E)|].
        bi E. bi E. refine (hull2_ends _ _ _ Z _ _ E); (eapply G; [| |eassumption]; assumption).
      + destruct (n_float N) eqn:F.
        * destruct (_ && _) in E; [destruct (Nf eq_refl E)|]. destruct (_ && _) in E; [destruct (Nf eq_refl E)|]. destruct (_ && _ && _) eqn:K in E.
          -- apply andb_prop in K as [K K2]. apply andb_prop in K as [_ K1]. destruct (Z0 K1 K2).
          -- bi E. bi E. bi E. bi E. refine (hull4_ends _ _ _ _ _ Z _ _ _ _ E); (eapply G; [| |eassumption]; assumption).
        * destruct (_ && _) in E; [discriminate|]. bi E. bi E. bi E. bi E. refine (hull4_ends _ _ _ _ _ Z _ _ _ _ E); (eapply G; [| |eassumption]; assumption).
    - unfold imin in E. bi E. apply mk_inv in E. subst Z. cbn. split; (eapply G; [| |reflexivity]; assumption).
    - unfold imax in E. bi E. apply mk_inv in E. subst Z. cbn. split; (eapply G; [| |reflexivity]; assumption).
  Qed.
  (** Functions other than [square] and [abs]. *)
  Definition steady (u : unop) : bool := match u with USquare | UAbs => false | _ => true end.
  Definition corner1 (u : unop) (X : ivl N) (z : N) : Prop := exists p, ends (Iv X) p /\ sun M dbg u p = Ret z.
  Lemma iun_corner u X Z : steady u = true -> iun M dbg u X = Ret Z -> corner1 u X (lo Z) /\ corner1 u X (hi Z).
  Proof.
    intros S E. assert (G : forall p z, ends (Iv X) p -> sun M dbg u p = Ret z -> corner1 u X z) by (intros p z A B; exists p; auto).
    assert (xl : ends (Iv X) (lo X)) by now left. assert (xu : ends (Iv X) (hi X)) by now right.
    assert (H2 : forall l v, corner1 u X l -> corner1 u X v -> from_unordered_bounds l v = Ret Z -> corner1 u X (lo Z) /\ corner1 u X (hi Z)) by (intros l v A B; exact (hull2_ends _ l v Z A B)).
    destruct u; try discriminate S; cbn [iun] in E.
    1: unfold iplus in E; bi E; injection E as <-; split; (eapply G; [|reflexivity]; assumption).
    1: unfold ineg in E; bi E; bi E; bi E; apply mk_inv in E; subst Z; cbn; eauto.
    1: unfold icube in E; bi E; bi E; bi E; apply mk_inv in E; subst Z; cbn; eauto.
    all: revert E; clear HN HO HP; revert G H2; unfold corner1, sun; destruct M as [m|]; cbn [with_math]; intros G H2 E; try discriminate E.
    all: first [unfold isqrt in E|unfold icbrt in E|unfold iexp in E|unfold ilog in E|unfold iatan in E|unfold iasin in E|unfold iacos in E|unfold ifloor in E|unfold iceil in E|unfold iround in E].
    all: bi E; try (bi E; bi E); first [apply H2 in E; eauto; fail|apply mk_inv in E; subst Z; cbn; eauto].
  Qed.

  (** ** Equal operands *)
  Lemma ends_el (x : arg N) p : aproper x -> ends x p -> ael x p.
  Proof. unfold aproper. intros P [-> | ->]; split; try exact P; clear - HO P; ord HO. Qed.
  Lemma point_in (x : arg N) p q : ael x p -> o_eq q p = true -> proper (Ivl p p) /\ subset (Ivl p p) (as_ivl x) /\ el (Ivl p p) q.
  Proof.
    intros [A B] E. assert (P : o_le p p = true) by (clear - HO A; ord HO). split; [exact P|]. split; [|split; cbn; clear - HO E; ord HO].
    intros v [K1 K2]. cbn in K1, K2. split; [assert (L : o_le (alower x) v = true) by (clear - HO A K1; ord HO)|assert (L : o_le v (aupper x) = true) by (clear - HO B K2; ord HO)]; destruct x; exact L.
  Qed.
  Lemma as_ivl_ael (x : arg N) v : el (as_ivl x) v <-> ael x v. Proof. destruct x; reflexivity. Qed.
  Lemma sbin_eq b (x y : arg N) Z p q p' q' z : aproper x -> aproper y -> domain2 b y -> ibin dbg b x y = Ret Z -> proper Z -> ael x p -> ael y q -> o_eq p' p = true -> o_eq q' q = true ->
    sbin b p q = Ret z -> exists z', sbin b p' q' = Ret z' /\ o_eq z' z = true.
  Proof.
    intros Px Py D E PZ Hp Hq Ep Eq Ez. destruct (point_in x p p' Hp Ep) as (P1 & S1 & I1), (point_in y q q' Hq Eq) as (P2 & S2 & I2).
    destruct (ibin_iso HP dbg b (Iv (Ivl p p)) (Iv (Ivl q q)) x y Z P1 P2) as ((Z0 & E0 & PZ0 & _) & D0); auto.
    { intros v Hv. apply as_ivl_ael. now apply S1. } { intros v Hv. apply as_ivl_ael. now apply S2. }
    destruct (ibin_in HP dbg b (Iv (Ivl p p)) (Iv (Ivl q q)) Z0 p' q' P1 P2 D0 E0 PZ0 I1 I2) as (z' & E' & Hz). exists z'. split; [exact E'|].
    destruct (ibin_corner b (Iv (Ivl p p)) (Iv (Ivl q q)) Z0 P2 D0 E0 PZ0) as [(p1 & q1 & A1 & B1 & C1) (p2 & q2 & A2 & B2 & C2)].
    assert (p1 = p /\ p2 = p /\ q1 = q /\ q2 = q) as (-> & -> & -> & ->) by (destruct A1, A2, B1, B2; subst; auto).
    rewrite Ez in C1, C2. injection C1 as C1. injection C2 as C2. destruct Hz as [L U]. rewrite <- C1 in L. rewrite <- C2 in U. clear - HO L U. ord HO.
  Qed.
  Lemma sun_eq u X Z p p' z : steady u = true -> proper X -> domain1 u (Iv X) -> monotone M u -> iun M dbg u X = Ret Z -> el X p -> o_eq p' p = true -> sun M dbg u p = Ret z ->
    exists z', sun M dbg u p' = Ret z' /\ o_eq z' z = true.
  Proof.
    intros S PX D Mo E Hp Ep Ez. destruct (point_in (Iv X) p p' Hp Ep) as (P1 & S1 & I1).
    destruct (iun_iso HP dbg u (Ivl p p) X Z P1 S1 D Mo E) as ((Z0 & E0 & PZ0 & _) & D0).
    destruct (iun_in HP dbg u _ Z0 p' P1 D0 Mo E0 I1) as (z' & E' & Hz). exists z'. split; [exact E'|].
    destruct (iun_corner u _ Z0 S E0) as [(p1 & A1 & C1) (p2 & A2 & C2)].
    assert (p1 = p /\ p2 = p) as (-> & ->) by (destruct A1, A2; subst; auto).
    rewrite Ez in C1, C2. injection C1 as C1. injection C2 as C2. destruct Hz as [L U]. rewrite <- C1 in L. rewrite <- C2 in U. clear - HO L U. ord HO.
  Qed.

  (** ** Points *)
  Fixpoint no_if (e : expr N) : bool := match e with EVar _ | ELit _ => true | EUn _ e => no_if e | EBin _ e f => no_if e && no_if f | EIf _ _ _ => false end.
  Lemma plain_no_if (e : expr N) : plain e = true -> no_if e = true.
  Proof.
    induction e as [i|v|u e IH|b e IHe f IHf|t e IHe f IHf]; intros H; try reflexivity; try discriminate H.
    - cbn [plain] in H. cbn [no_if]. destruct u; try (apply IH; exact H); destruct e; try discriminate H; reflexivity.
    - cbn [plain] in H. apply andb_prop in H as [A B]. cbn [no_if]. now rewrite IHe, IHf.
  Qed.
  Lemma seval_same xs ys (e : expr N) : no_if e = true -> (forall i, In i (variables e) -> nth_error xs i = nth_error ys i) -> seval M dbg xs e = seval M dbg ys e.
  Proof.
    induction e as [i|v|u e IH|b e IHe f IHf|t e IHe f IHf]; intros H K; try discriminate H.
    - cbn. unfold slookup. now rewrite (K i (or_introl eq_refl)).
    - reflexivity.
    - rewrite !seval_un. now rewrite IH.
    - cbn [no_if] in H. apply andb_prop in H as [A B]. rewrite !seval_bin. cbn [variables] in K. rewrite IHe, IHf; auto; intros i Hi; apply K; apply in_or_app; auto.
  Qed.
  Lemma pick_points (P : nat -> bool) (Xs : list (ivl N)) xs ys : Forall2 el Xs xs -> Forall2 el Xs ys ->
    exists zs, Forall2 el Xs zs /\ forall i, nth_error zs i = if P i then nth_error xs i else nth_error ys i.
  Proof.
    intros H. revert P ys. induction H as [|X x Xs xs Hx _ IH]; intros P ys K; inversion K as [|? y ? ys' Hy Hys]; subst.
    - exists []. split; [constructor|]. intros i. destruct (P i); reflexivity.
    - destruct (IH (fun i => P (S i)) ys' Hys) as (zs & Hz & Ez). exists ((if P 0 then x else y) :: zs). split; [constructor; [now destruct (P 0)|exact Hz]|].
      intros [|i]; cbn; [now destruct (P 0)|]. apply Ez.
  Qed.
  Lemma values_pair Xs (e f : expr N) v w : no_if e = true -> no_if f = true -> NoDup (variables e ++ variables f) -> values M dbg Xs e v -> values M dbg Xs f w ->
    exists zs, Forall2 el Xs zs /\ seval M dbg zs e = Ret v /\ seval M dbg zs f = Ret w.
  Proof.
    intros Ne Nf D (xs & Hx & Ex) (ys & Hy & Ey). destruct (pick_points (fun i => if in_dec Nat.eq_dec i (variables e) then true else false) Xs xs ys Hx Hy) as (zs & Hz & Ez).
    exists zs. split; [exact Hz|]. split.
    - rewrite <- Ex. apply seval_same; [exact Ne|]. intros i Hi. rewrite Ez. destruct (in_dec Nat.eq_dec i (variables e)); [reflexivity|contradiction].
    - rewrite <- Ey. apply seval_same; [exact Nf|]. intros i Hi. rewrite Ez. destruct (in_dec Nat.eq_dec i (variables e)) as [Q|]; [|reflexivity]. exfalso.
      clear - D Hi Q. induction (variables e) as [|j l IH]; [destruct Q|]. cbn in D. inversion D as [|? ? A B]; subst. destruct Q as [-> |Q]; [apply A; apply in_or_app; auto|auto].
  Qed.

  (** ** The induction *)
  Definition attained Xs (e : expr N) (z : N) : Prop := exists v, values M dbg Xs e v /\ o_eq v z = true.
  Lemma nodup_l (l k : list nat) : NoDup (l ++ k) -> NoDup l.
  Proof. induction l as [|i l IH]; intros H; [constructor|]. cbn in H. inversion H as [|? ? A B]; subst. constructor; [|auto]. intros K. apply A. apply in_or_app. auto. Qed.
  Lemma nodup_r (l k : list nat) : NoDup (l ++ k) -> NoDup k.
  Proof. induction l as [|i l IH]; intros H; [exact H|]. cbn in H. inversion H; auto. Qed.
  Lemma attained_ends (Xs : list (ivl N)) (PXs : Forall proper Xs) (e : expr N) : plain e = true -> single_use e -> eclean M dbg (map Iv Xs) e -> efuns (monotone M) e -> forall a, ieval M dbg (map Iv Xs) e = Ret a ->
    attained Xs e (alower a) /\ attained Xs e (aupper a).
  Proof.
    assert (Pt : exists xs, Forall2 el Xs xs) by (exists (map lo Xs); induction PXs; constructor; auto; apply (el_lower HO); assumption).
    assert (Sc1 : forall (e : expr N) c, eclean M dbg (map Iv Xs) e -> efuns (monotone M) e -> ieval M dbg (map Iv Xs) e = Ret (Sc c) -> attained Xs e c).
    { intros e0 c Cl Fu E. destruct Pt as (xs & Hx). destruct (expression_included HP dbg Xs xs e0 _ Hx Cl Fu E) as (v & Ev & ->). exists c. split; [exists xs; auto|].
      pose proof (eclean_number dbg (map Iv Xs) e0 _ Cl E) as P. unfold aproper in P. cbn in P. clear - HO P. ord HO. }
    unfold single_use. induction e as [i|v|u e IH|b e IHe f IHf|t e IHe f IHf]; intros Pl Su Cl Fu a E.
    - cbn in E. unfold ilookup in E. rewrite nth_error_map in E. destruct (nth_error Xs i) as [X|] eqn:K; [|discriminate]. injection E as <-. cbn [alower aupper].
      assert (G : forall w, el X w -> attained Xs (EVar i) w).
      { intros w Hw. exists w. split; [|destruct Hw as [Hw _]; clear - HO Hw; ord HO]. clear - K Hw PXs HO. revert i K. induction PXs as [|Y Ys PY PYs IH]; intros i K; [destruct i; discriminate|].
        assert (Q : exists ys, Forall2 el Ys ys) by (exists (map lo Ys); clear - PYs HO; induction PYs; constructor; auto; apply (el_lower HO); assumption).
        destruct i as [|i].
        - cbn in K. injection K as ->. destruct Q as (ys & Hy). exists (w :: ys). split; [now constructor|reflexivity].
        - destruct (IH i K) as (ys & Hy & Ey). exists (lo Y :: ys). split; [constructor; [now apply (el_lower HO)|exact Hy]|exact Ey]. }
      rewrite Forall_forall in PXs. pose proof (PXs X (nth_error_In _ _ K)) as PX. split; apply G; [now apply (el_lower HO)|now apply (el_upper HO)].
    - injection E as <-. split; apply (Sc1 (ELit v) v Cl Fu eq_refl).
    - pose proof (eclean_number dbg _ (EUn u e) a Cl E) as Pa. destruct a as [c|Z]; [split; exact (Sc1 _ c Cl Fu E)|].
      pose proof Cl as Cl0. destruct Cl as (_ & Cl & Dm), Fu as [Mo Fu]. rewrite ieval_un in E. apply bind_inv in E as (x & Ex & E). pose proof (eclean_number dbg _ e x Cl Ex) as Px. specialize (Dm x Ex).
      destruct x as [c|X]; cbn [lift1] in E; apply bind_inv in E as (Z1 & E & K); [discriminate|]. injection K as ->. cbn [alower aupper].
      assert (Q : (steady u = true /\ plain e = true) \/ ((u = USquare \/ u = UAbs) /\ exists i, e = EVar i)).
      { cbn [plain] in Pl. destruct u; try (left; split; [reflexivity|exact Pl]); right; (split; [auto|]); destruct e; try discriminate Pl; eauto. }
      destruct Q as [[St Ple]|[Su' (i & ->)]].
      + destruct (IH Ple Su Cl Fu _ Ex) as [A B]. destruct (iun_corner u X Z St E) as [C1 C2].
        assert (G : forall z, corner1 u X z -> attained Xs (EUn u e) z).
        { intros z (p & Hp & Ep). assert (At : attained Xs e p) by (destruct Hp as [-> | ->]; assumption). destruct At as (v & (xs & Hx & Ev) & Eq).
          destruct (sun_eq u X Z p v z St Px Dm Mo E (ends_el (Iv X) p Px Hp) Eq Ep) as (z' & Ez & Eqz). exists z'. split; [|exact Eqz]. exists xs. split; [exact Hx|]. now rewrite seval_un, Ev. }
        split; now apply G.
      + assert (H : is_hull (img1 (sun M dbg u) X) Z) by (destruct Su' as [-> | ->]; [exact (proj2 (proj2 (square_ok HN dbg X Px) Z E))|exact (proj2 (proj2 (iabs_ok HN dbg X Px) Z E))]).
        assert (G : forall z, (exists v, img1 (sun M dbg u) X v /\ o_eq v z = true) -> attained Xs (EUn u (EVar i)) z).
        { intros z (v & (x & Hx & Ev) & Eq). exists v. split; [|exact Eq].
          cbn in Ex. unfold ilookup in Ex. rewrite nth_error_map in Ex. destruct (nth_error Xs i) as [X0|] eqn:K; [|discriminate]. injection Ex as ->.
          assert (W : exists xs, Forall2 el Xs xs /\ nth_error xs i = Some x).
          { clear - K Hx PXs HO. revert i K. induction PXs as [|Y Ys PY PYs IH]; intros i K; [destruct i; discriminate|].
            assert (Q : exists ys, Forall2 el Ys ys) by (exists (map lo Ys); clear - PYs HO; induction PYs; constructor; auto; apply (el_lower HO); assumption).
            destruct i as [|i].
            - cbn in K. injection K as ->. destruct Q as (ys & Hy). exists (x :: ys). split; [now constructor|reflexivity].
            - destruct (IH i K) as (ys & Hy & Ey). exists (lo Y :: ys). split; [constructor; [now apply (el_lower HO)|exact Hy]|exact Ey]. }
          destruct W as (xs & Hxs & Exs). exists xs. split; [exact Hxs|]. rewrite seval_un. cbn [seval]. unfold slookup. now rewrite Exs. }
        destruct H as (_ & H1 & H2). split; apply G; assumption.
    - pose proof (eclean_number dbg _ (EBin b e f) a Cl E) as Pa. destruct a as [c|Z]; [split; exact (Sc1 _ c Cl Fu E)|].
      pose proof Cl as Cl0. destruct Cl as (_ & Cle & Clf & Dm), Fu as [Fe Ff]. cbn [plain] in Pl. apply andb_prop in Pl as [Ple Plf]. cbn [variables] in Su.
      rewrite ieval_bin in E. apply bind_inv in E as (x & Ex & E). apply bind_inv in E as (y & Ey & E). specialize (Dm y Ey).
      pose proof (eclean_number dbg _ e x Cle Ex) as Px. pose proof (eclean_number dbg _ f y Clf Ey) as Py.
      assert (C : ibin dbg b x y = Ret Z) by (destruct x, y; cbn [lift2] in E; apply bind_inv in E as (r & E & K); [discriminate| | |]; now injection K as <-).
      destruct (IHe Ple (nodup_l _ _ Su) Cle Fe x Ex) as [A1 A2], (IHf Plf (nodup_r _ _ Su) Clf Ff y Ey) as [B1 B2]. destruct (ibin_corner b x y Z Py Dm C Pa) as [C1 C2].
      assert (G : forall z, corner b x y z -> attained Xs (EBin b e f) z).
      { intros z (p & q & Hp & Hq & Ez). assert (Ap : attained Xs e p) by (destruct Hp as [-> | ->]; assumption). assert (Aq : attained Xs f q) by (destruct Hq as [-> | ->]; assumption).
        destruct Ap as (v & Hv & Ev), Aq as (w & Hw & Ew). destruct (values_pair Xs e f v w (plain_no_if e Ple) (plain_no_if f Plf) Su Hv Hw) as (zs & Hz & E1 & E2).
        destruct (sbin_eq b x y Z p q v w z Px Py Dm C Pa (ends_el x p Px Hp) (ends_el y q Py Hq) Ev Ew Ez) as (z' & Ez' & Eq). exists z'. split; [|exact Eq].
        exists zs. split; [exact Hz|]. now rewrite seval_bin, E1, E2. }
      split; now apply G.
    - discriminate Pl.
  Qed.
  Lemma single_use_hull (Xs : list (ivl N)) (e : expr N) a : Forall proper Xs -> plain e = true -> single_use e -> eclean M dbg (map Iv Xs) e -> efuns (monotone M) e -> ieval M dbg (map Iv Xs) e = Ret a ->
    is_hull (values M dbg Xs e) (as_ivl a).
  Proof.
    intros P Pl Su Cl Fu E. destruct (attained_ends Xs P e Pl Su Cl Fu a E) as [A B]. split; [|split].
    - intros v (xs & Hx & Ev). destruct (expression_included HP dbg Xs xs e a Hx Cl Fu E) as (w & Ew & Hw). rewrite Ev in Ew. injection Ew as <-.
      destruct a as [c|Z]; [|exact Hw]. subst v. pose proof (eclean_number dbg (map Iv Xs) e _ Cl E) as Q. split; exact Q.
    - destruct a; exact A.
    - destruct a; exact B.
  Qed.
  Lemma single_use_bounds (Xs : list (ivl N)) (e : expr N) a : Forall proper Xs -> plain e = true -> single_use e -> eclean M dbg (map Iv Xs) e -> efuns (monotone M) e -> ieval M dbg (map Iv Xs) e = Ret a ->
    (forall v, values M dbg Xs e v -> ael a v)
    /\ (exists v, values M dbg Xs e v /\ o_eq v (alower a) = true) /\ (exists v, values M dbg Xs e v /\ o_eq v (aupper a) = true).
  Proof.
    intros P Pl Su Cl Fu E. destruct (single_use_hull Xs e a P Pl Su Cl Fu E) as (A & B & C). split; [|destruct a; auto]. intros v Hv. apply as_ivl_ael. auto.
  Qed.
End Use.
