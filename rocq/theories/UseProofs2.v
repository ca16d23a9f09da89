(** Expressions that mention each variable at most once: in exact arithmetic the interval result is the set of the values. *)
From Coq Require Import Reals Bool List Arith Lra Lia.
From Flocq Require Import Core.
From Verif Require Import Outcome SetModel Spec Num NumLaws XReal RealNum RealMath IntervalModel IvlSpec IvlProofs ArithProofs ArithProofs2 ArithProofs3 ArithProofs4 ArithProofs5
  ConstrainModel CondSpec ConstrainProofs ConstrainProofs2 ConstrainProofs3 ConstrainProofs4 ConstrainProofs5 ConstrainWrap MathModel FloatMathProofs MathSpec MathProofs MonoProofs MathWrap ValueTypes LangModel LangSpec LangProofs LangProofs2 IsoSpec IsoProofs IsoProofs2 IsoProofs4 LimitSpec LimitProofs LimitProofs2 UseSpec UseProofs.
Import ListNotations.
Open Scope R_scope.

(** ** Intermediate values *)
Definition clamp (l h x : R) : R := Rmax l (Rmin x h).
Lemma clamp_in l h x : l <= h -> l <= clamp l h x <= h.
Proof. unfold clamp, Rmax, Rmin. intros. repeat destruct Rle_dec; lra. Qed.
Lemma clamp_id l h x : l <= x <= h -> clamp l h x = x.
Proof. unfold clamp, Rmax, Rmin. intros. repeat destruct Rle_dec; lra. Qed.
Lemma clamp_lip l h x y : l <= h -> Rabs (clamp l h x - clamp l h y) <= Rabs (x - y).
Proof. unfold clamp, Rmax, Rmin, Rabs. intros. repeat destruct Rle_dec; repeat destruct Rcase_abs; lra. Qed.
Lemma ivt f l h a b v : uc1 f l h -> l <= a <= h -> l <= b <= h -> f a <= v <= f b -> exists x, l <= x <= h /\ f x = v.
Proof.
  intros U Ha Hb Hv. set (g := fun x => f (clamp l h x) - v).
  assert (C : continuity g).
  { intros x. unfold continuity_pt, continue_in, limit1_in, limit_in. intros eps He. destruct (U (eps / 2) ltac:(lra)) as (d & Hd & H). exists d. split; [exact Hd|].
    intros y [_ Hy]. cbn in Hy |- *. unfold R_dist in *. unfold g. replace (f (clamp l h y) - v - (f (clamp l h x) - v)) with (f (clamp l h y) - f (clamp l h x)) by ring.
    apply Rle_lt_trans with (eps / 2); [|lra]. apply H; try (apply clamp_in; lra). pose proof (clamp_lip l h y x ltac:(lra)). lra. }
  assert (Ga : g a <= 0) by (unfold g; rewrite clamp_id by lra; lra). assert (Gb : 0 <= g b) by (unfold g; rewrite clamp_id by lra; lra).
  assert (Z : exists z, l <= z <= h /\ g z = 0).
  { destruct (Rle_lt_dec a b) as [L|L].
    - destruct (IVT_cor g a b C L ltac:(nra)) as (z & Hz & E). exists z. split; [lra|exact E].
    - destruct (IVT_cor g b a C ltac:(lra) ltac:(nra)) as (z & Hz & E). exists z. split; [lra|exact E]. }
  destruct Z as (z & Hz & E). exists z. split; [exact Hz|]. unfold g in E. rewrite clamp_id in E by lra. lra.
Qed.
Lemma ivt2 f l h l' h' a b a' b' v : uc2 f l h l' h' -> l <= a <= h -> l <= b <= h -> l' <= a' <= h' -> l' <= b' <= h' -> f a a' <= v <= f b b' ->
  exists x y, l <= x <= h /\ l' <= y <= h' /\ f x y = v.
Proof.
  intros U Ha Hb Ha' Hb' Hv. destruct (Rle_lt_dec v (f b a')) as [L|L].
  - destruct (ivt (fun x => f x a') l h a b v) as (x & Hx & E); try lra; [|exists x, a'; auto].
    intros eps He. destruct (U eps He) as (d & Hd & H). exists d. split; [exact Hd|]. intros x y Hx Hy K. apply H; auto. replace (a' - a') with 0 by ring. rewrite Rabs_R0. lra.
  - destruct (ivt (fun y => f b y) l' h' a' b' v) as (x & Hx & E); try lra; [|exists b, x; auto].
    intros eps He. destruct (U eps He) as (d & Hd & H). exists d. split; [exact Hd|]. intros x y Hx Hy K. apply H; auto. replace (b - b) with 0 by ring. rewrite Rabs_R0. lra.
Qed.

Section Range.
  Variable dbg : bool.
  Notation N := real_num.
  Notation M := (Some real_math).
  Let HP : prog_type N M := pt_math N real_math fm_real.
  Let HN := prog_laws N M HP.
  Let HO := nl_ord N HN.

  Lemma point_at (Xs : list (ivl N)) i X x : Forall proper Xs -> nth_error Xs i = Some X -> el X x -> exists xs, Forall2 el Xs xs /\ nth_error xs i = Some x.
  Proof.
    intros P. revert i. induction P as [|Y Ys PY PYs IH]; intros i K Hx; [destruct i; discriminate|]. destruct i as [|i].
    - cbn in K. injection K as ->. destruct (box_point Ys PYs) as (ys & Hy). exists (x :: ys). split; [now constructor|reflexivity].
    - destruct (IH i K Hx) as (ys & Hy & Ey). exists (lo Y :: ys). split; [constructor; [now apply (el_lower HO)|exact Hy]|exact Ey].
  Qed.
  Lemma continuous_no_if (e : expr N) : continuous e = true -> no_if e = true.
  Proof.
    induction e as [i|v|u e IH|b e IHe f IHf|t e IHe f IHf]; cbn; intros H; auto.
    - apply andb_prop in H as [_ H]. auto.
    - apply andb_prop in H as [A B]. now rewrite IHe, IHf.
  Qed.
  Lemma xeq_fin (v : N) r : @o_eq N v (XFin r) = true -> v = XFin r.
  Proof. intros E. cbn in E. apply xeq_iff in E as [E _]. exact E. Qed.

  Lemma range_un u (X Z : ivl N) r : continuous_fun u = true -> proper X -> domain1 u (Iv X) -> bounded (Iv X) -> iun M dbg u X = Ret Z -> bounded (Iv Z) -> el Z (XFin r) ->
    exists x, el X (XFin x) /\ sun M dbg u (XFin x : N) = Ret (XFin r : N).
  Proof.
    intros C PX D BX E BZ Hr. destruct (iun_hull dbg u X Z C PX D E) as (_ & (v & (p & Hp & Ep) & Ev) & (w & (q & Hq & Eq) & Ew)).
    destruct X as [xl xu], Z as [zl zu]. destruct BX as (l & h & El & Eh), BZ as (zl' & zh & Ezl & Ezh). cbn in El, Eh, Ezl, Ezh. subst xl xu zl zu. cbn [lo hi] in Ev, Ew. apply xeq_fin in Ev, Ew. subst v w.
    apply TrigProofs.real_el in Hp as (p' & -> & Hp), Hq as (q' & -> & Hq). apply TrigProofs.real_el in Hr as (r' & K & Hr). injection K as <-.
    assert (L : l <= h) by lra.
    assert (Dd : forall s, l <= s <= h -> dom1 u s) by (intros s Hs; apply (domain_dom dbg u (TrigProofs.RI l h) (TrigProofs.RI zl' zh) s C PX D E); [exists zl', zh; split; reflexivity|apply TrigProofs.real_el; eauto]).
    rewrite (sun_fin dbg u p' C (Dd p' Hp)) in Ep. rewrite (sun_fin dbg u q' C (Dd q' Hq)) in Eq. injection Ep as Ep. injection Eq as Eq.
    destruct (ivt (fun1 u) l h p' q' r) as (x & Hx & Ex); try lra; [apply uc_fun; apply Dd; lra|].
    exists x. split; [apply TrigProofs.real_el; eauto|]. rewrite (sun_fin dbg u x C (Dd x Hx)). now rewrite Ex.
  Qed.
  Lemma range_bin b (x y : arg N) Z r : aproper x -> aproper y -> domain2 b y -> bounded x -> bounded y -> ibin dbg b x y = Ret Z -> proper Z -> bounded (Iv Z) -> el Z (XFin r) ->
    exists p q, ael x (XFin p) /\ ael y (XFin q) /\ sbin b (XFin p : N) (XFin q : N) = Ret (XFin r : N).
  Proof.
    intros Px Py D Bx By E PZ BZ Hr. destruct (ibin_hull dbg b x y Z Px Py D E PZ) as (_ & (v & (p & q & Hp & Hq & Ep) & Ev) & (w & (p1 & q1 & Hp1 & Hq1 & Ep1) & Ew)).
    destruct Z as [zl zu]. destruct BZ as (zl' & zh & Ezl & Ezh). cbn in Ezl, Ezh. subst zl zu. cbn [lo hi] in Ev, Ew. apply xeq_fin in Ev, Ew. subst v w.
    apply TrigProofs.real_el in Hr as (r' & K & Hr). injection K as <-.
    destruct Bx as (l & h & El & Eh), By as (l' & h' & El' & Eh').
    assert (Ix : forall v, ael x v <-> exists s, v = XFin s /\ l <= s <= h) by (intros v; unfold ael; rewrite El, Eh; apply (TrigProofs.real_el l h v)).
    assert (Iy : forall v, ael y v <-> exists s, v = XFin s /\ l' <= s <= h') by (intros v; unfold ael; rewrite El', Eh'; apply (TrigProofs.real_el l' h' v)).
    assert (Nz : b = BDiv -> forall s, l' <= s <= h' -> s <> 0).
    { intros -> s Hs ->. apply D. exists (XFin 0). split; [apply Iy; eauto|]. unfold is_zero. apply TrigProofs.real_eq. reflexivity. }
    apply Ix in Hp as (s & -> & Hs), Hp1 as (s1 & -> & Hs1). apply Iy in Hq as (t & -> & Ht), Hq1 as (t1 & -> & Ht1).
    rewrite sbin_fin in Ep by (intros K; now apply Nz). rewrite sbin_fin in Ep1 by (intros K; now apply Nz). injection Ep as Ep. injection Ep1 as Ep1.
    assert (D2 : dom2 b l' h').
    { destruct b; try exact I. cbn. destruct (Rlt_le_dec 0 l') as [|Ql]; [now left|]. destruct (Rlt_le_dec h' 0) as [|Qu]; [now right|]. exfalso. apply (Nz eq_refl 0); [lra|reflexivity]. }
    destruct (ivt2 (fun2 b) l h l' h' s s1 t t1 r) as (x1 & y1 & Hx & Hy & Ex); try lra; [now apply uc_bin|].
    exists x1, y1. split; [apply Ix; eauto|]. split; [apply Iy; eauto|]. rewrite sbin_fin by (intros K; now apply Nz). now rewrite Ex.
  Qed.

  Lemma range_exact (Xs : list (ivl N)) (PXs : Forall proper Xs) (e : expr N) : continuous e = true -> single_use e -> eclean M dbg (map Iv Xs) e -> ebounded dbg (map Iv Xs) e ->
    forall a, ieval M dbg (map Iv Xs) e = Ret a -> forall r, ael a (XFin r) -> values M dbg Xs e (XFin r : N).
  Proof.
    assert (Sc1 : forall (e : expr N) c r, eclean M dbg (map Iv Xs) e -> ieval M dbg (map Iv Xs) e = Ret (Sc c) -> ael (Sc c : arg N) (XFin r) -> values M dbg Xs e (XFin r : N)).
    { intros e0 c r Cl E Hr. destruct (box_point Xs PXs) as (xs & Hx). destruct (expression_included HP dbg Xs xs e0 _ Hx Cl (all_monotone e0) E) as (v & Ev & ->). exists xs. split; [exact Hx|].
      rewrite Ev. f_equal. destruct Hr as [A B]. apply xeq_fin. change (xle c (XFin r) = true) in A. change (xle (XFin r) c = true) in B. change (xeq c (XFin r) = true). unfold xeq. now rewrite A, B. }
    unfold single_use. induction e as [i|v|u e IH|b e IHe f IHf|t e IHe f IHf]; intros C Su Cl B a E r Hr; cbn [continuous] in C.
    - cbn [ieval] in E. unfold ilookup in E. rewrite nth_error_map in E. destruct (nth_error Xs i) as [X|] eqn:K; [|discriminate E]. cbn in E. injection E as <-.
      destruct (point_at Xs i X _ PXs K Hr) as (xs & Hx & Ex). exists xs. split; [exact Hx|]. cbn. unfold slookup. now rewrite Ex.
    - injection E as <-. exact (Sc1 (ELit v) v r Cl eq_refl Hr).
    - destruct a as [c|Z]; [exact (Sc1 _ c r Cl E Hr)|]. apply andb_prop in C as [Cu Ce]. destruct B as [Ba Be]. specialize (Ba _ E). destruct Cl as (_ & Cl & Dm).
      rewrite ieval_un in E. apply bind_inv in E as (x & Ex & E). pose proof (eclean_number dbg _ e x Cl Ex) as Px. specialize (Dm x Ex).
      destruct x as [c|X]; cbn [lift1] in E; apply bind_inv in E as (Z1 & E & K); [discriminate|]. injection K as ->.
      assert (Bx : bounded (Iv X)) by (destruct e; exact (proj1 Be _ Ex)).
      destruct (range_un u X Z r Cu Px Dm Bx E Ba Hr) as (s & Hs & Es). destruct (IH Ce Su Cl Be _ Ex s Hs) as (xs & Hx & Ev). exists xs. split; [exact Hx|]. now rewrite seval_un, Ev.
    - destruct a as [c|Z]; [exact (Sc1 _ c r Cl E Hr)|]. pose proof (eclean_number dbg _ (EBin b e f) _ Cl E) as Pa. apply andb_prop in C as [Ce Cf]. destruct B as [Ba [Be Bf]]. specialize (Ba _ E). destruct Cl as (_ & Cle & Clf & Dm).
      rewrite ieval_bin in E. apply bind_inv in E as (x & Ex & E). apply bind_inv in E as (y & Ey & E). specialize (Dm y Ey).
      pose proof (eclean_number dbg _ e x Cle Ex) as Px. pose proof (eclean_number dbg _ f y Clf Ey) as Py.
      assert (Ei : ibin dbg b x y = Ret Z) by (destruct x, y; cbn [lift2] in E; apply bind_inv in E as (z & E & K); [discriminate| | |]; now injection K as <-).
      assert (Bx : bounded x) by (destruct e; exact (proj1 Be _ Ex)). assert (By : bounded y) by (destruct f; exact (proj1 Bf _ Ey)). cbn [variables] in Su.
      destruct (range_bin b x y Z r Px Py Dm Bx By Ei Pa Ba Hr) as (p & q & Hp & Hq & Er).
      pose proof (IHe Ce (nodup_l _ _ Su) Cle Be x Ex p Hp) as Vp. pose proof (IHf Cf (nodup_r _ _ Su) Clf Bf y Ey q Hq) as Vq.
      destruct (values_pair dbg Xs e f _ _ (continuous_no_if e Ce) (continuous_no_if f Cf) Su Vp Vq) as (zs & Hz & E1 & E2). exists zs. split; [exact Hz|]. now rewrite seval_bin, E1, E2.
    - discriminate C.
  Qed.
  Lemma single_use_range (Xs : list (ivl N)) (e : expr N) a : Forall proper Xs -> continuous e = true -> single_use e -> eclean M dbg (map Iv Xs) e -> ebounded dbg (map Iv Xs) e ->
    ieval M dbg (map Iv Xs) e = Ret a -> forall v : N, ael a v <-> values M dbg Xs e v.
  Proof.
    intros P C Su Cl B E v. assert (Ba : bounded a) by (destruct e; exact (proj1 B _ E)). split.
    - intros Hv. destruct (bounded_el a v Ba Hv) as (? & ? & r & _ & _ & -> & _). exact (range_exact Xs P e C Su Cl B a E r Hv).
    - intros (xs & Hx & Ev). destruct (expression_included HP dbg Xs xs e a Hx Cl (all_monotone e) E) as (w & Ew & Hw). rewrite Ev in Ew. injection Ew as <-.
      destruct a as [c|Z]; [|exact Hw]. subst v. pose proof (eclean_number dbg (map Iv Xs) e _ Cl E) as Q. split; exact Q.
  Qed.
End Range.

(** ** An example *)
Definition exp_minus_y : expr real_num := EBin BSub (EUn UExp (EVar 0%nat)) (EVar 1%nat).
Definition unit_square : list (ivl real_num) := [TrigProofs.RI 0 1; TrigProofs.RI 0 1].
Lemma exp_minus_y_ok dbg : eclean (Some real_math) dbg (map Iv unit_square) exp_minus_y /\ ebounded dbg (map Iv unit_square) exp_minus_y
  /\ ieval (Some real_math) dbg (map Iv unit_square) exp_minus_y = Ret (Iv (TrigProofs.RI (exp 0 - 1) (exp 1 - 0))).
Proof.
  pose proof (exp_increasing 0 1 ltac:(lra)) as L.
  assert (Nv : forall o a b, a <= b -> o = Ret (Iv (TrigProofs.RI a b)) -> number o /\ forall x, o = Ret x -> bounded x).
  { intros o a b H ->. split; intros x K; injection K as <-; [now apply TrigProofs.real_proper|]. exists a, b. split; reflexivity. }
  assert (V0 : ieval (Some real_math) dbg (map Iv unit_square) (EVar 0%nat) = Ret (Iv (TrigProofs.RI 0 1))) by reflexivity.
  assert (V1 : ieval (Some real_math) dbg (map Iv unit_square) (EVar 1%nat) = Ret (Iv (TrigProofs.RI 0 1))) by reflexivity.
  assert (V2 : ieval (Some real_math) dbg (map Iv unit_square) (EUn UExp (EVar 0%nat)) = Ret (Iv (TrigProofs.RI (exp 0) (exp 1)))).
  { rewrite ieval_un, V0. cbn [bind lift1 iun with_math]. unfold iexp, sexp. rewrite expects_debug_true by (unfold assigned; cbn; unfold xlt, xle; rewrite (Rle_bool_false 1 0) by lra; reflexivity).
    cbn [bind real_math m_exp lo hi]. change (@bind (ivl real_num) (arg real_num) (mk (XFin (exp 0) : real_num) (XFin (exp 1) : real_num)) (fun R2 => Ret (Iv R2)) = Ret (Iv (TrigProofs.RI (exp 0) (exp 1)))).
    rewrite TrigProofs.real_mk; [reflexivity|lra]. }
  assert (V3 : ieval (Some real_math) dbg (map Iv unit_square) exp_minus_y = Ret (Iv (TrigProofs.RI (exp 0 - 1) (exp 1 - 0)))).
  { unfold exp_minus_y. rewrite ieval_bin, V1, V2. cbn [bind lift2 ibin]. unfold isub.
    rewrite expects_debug_true by (unfold aassigned, assigned; cbn; unfold xlt, xle; rewrite (Rle_bool_false (exp 1) (exp 0)), (Rle_bool_false 1 0) by lra; reflexivity). cbn [bind].
    change (@bind (ivl real_num) (arg real_num) (mk (XFin (exp 0 - 1) : real_num) (XFin (exp 1 - 0) : real_num)) (fun R2 => Ret (Iv R2)) = Ret (Iv (TrigProofs.RI (exp 0 - 1) (exp 1 - 0)))).
    rewrite TrigProofs.real_mk; [reflexivity|lra]. }
  destruct (Nv _ 0 1 ltac:(lra) V0) as [A0 B0], (Nv _ 0 1 ltac:(lra) V1) as [A1 B1], (Nv _ (exp 0) (exp 1) ltac:(lra) V2) as [A2 B2], (Nv _ (exp 0 - 1) (exp 1 - 0) ltac:(lra) V3) as [A3 B3].
  split; [|split; [|exact V3]]; cbn; auto 10.
Qed.
