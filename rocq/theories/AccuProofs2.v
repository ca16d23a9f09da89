(** Rounding errors of whole expressions (C80). *)
From Coq Require Import Reals ZArith Bool List Lra Psatz.
From Flocq Require Import Core BinarySingleNaN.
From Verif Require Import Outcome SetModel Spec Num NumLaws IntervalModel IvlSpec IvlProofs XReal FloatNum FloatMath FloatProofs FloatMathProofs ConstrainProofs5
  ValueTypes RoundSpec RoundProofs MachineSpec TrigMachineProofs PowNearProofs LibMachineProofs RealMath LangModel LangSpec LangProofs LangProofs2 MathModel MathSpec UseSpec UseProofs AccuSpec AccuProofs.
Import ListNotations.
Open Scope R_scope.

Section Expressions.
  Context (prec emax : Z) (Hp : Prec_gt_0 prec) (He : Prec_lt_emax prec emax).
  Notation F := (float_num prec emax Hp He).
  Context (L : libm (binary_float prec emax)) (acc : unop -> R) (dbg : bool).
  Notation M := (float_math prec emax Hp He L).
  Implicit Types (V : list (arg F)) (e : expr F).

  Lemma exact_unique rs e v w : exact rs e v -> exact rs e w -> v = w.
  Proof.
    revert v w. induction e as [i|c|u e IH|b e IHe f IHf|t e IHe f IHf]; cbn [exact]; intros v w H K.
    - congruence.
    - congruence.
    - destruct H as (r & Hr & H), K as (r' & Hr' & K). rewrite (IH _ _ Hr' Hr) in K. destruct u; cbn in H, K; intuition congruence.
    - destruct H as (r & s & Hr & Hs & H), K as (r' & s' & Hr' & Hs' & K). rewrite (IHe _ _ Hr' Hr), (IHf _ _ Hs' Hs) in K. destruct b; cbn in H, K; intuition congruence.
    - contradiction.
  Qed.
  Lemma run_result V e a : ieval (Some M) dbg V e = Ret a -> result L dbg V e = a.
  Proof. unfold result. now intros ->. Qed.
  Lemma within_nth V rs i a : Forall2 within V rs -> nth_error V i = Some a -> exists r, nth_error rs i = Some r /\ within a r.
  Proof. intros H. revert i. induction H as [|x r V rs Hx H IH]; intros [|i] E; try discriminate; cbn in *; [injection E as <-; eauto|auto]. Qed.
  Lemma analysable_ends V e a : analysable L acc dbg V e -> ieval (Some M) dbg V e = Ret a -> finite_ends a.
  Proof. intros H. destruct e; cbn [analysable] in H; destruct H as [H _]; exact (H a). Qed.

  Theorem expression_accuracy V rs e a : Forall finite_arg V -> Forall2 within V rs -> analysable L acc dbg V e -> ieval (Some M) dbg V e = Ret a ->
    finite_arg a /\ 0 <= error_bound L acc dbg V e /\ exists v, exact rs e v /\ near (error_bound L acc dbg V e) a v.
  Proof.
    intros HV HW. revert a. induction e as [i|c|u e IH|b e IHe f IHf|t e IHe f IHf]; intros a An E; pose proof (analysable_ends V _ a An E) as Fa.
    - cbn [ieval] in E. unfold ilookup in E. destruct (nth_error V i) as [x|] eqn:N; [|discriminate]. injection E as <-.
      destruct (within_nth V rs i x HW N) as (r & Nr & Wr). split; [exact (proj1 (Forall_forall _ _) HV x (nth_error_In _ _ N))|]. cbn [error_bound]. split; [lra|].
      exists r. split; [exact Nr|]. unfold near. unfold within in Wr. lra.
    - cbn [ieval] in E. injection E as <-. cbn [error_bound]. split; [exact (conj (proj1 Fa) (conj (proj2 Fa) (Rle_refl _)))|]. split; [lra|]. exists (B2R c). split; [reflexivity|]. unfold near. cbn [alower aupper]. lra.
    - pose proof (run_result V _ a E) as Ra. rewrite ieval_un in E. apply bind_inv in E as (x & Ex & E). cbn [analysable] in An. destruct An as (_ & A1 & A2).
      destruct (IH x A1 Ex) as (Hx & Pd & r & Hr & Nr). pose proof (un_accuracy prec emax Hp He L acc dbg u x a (error_bound L acc dbg V e) r Hx Pd (A2 x Ex) E Fa Nr) as (HA & HB & v & Hv & Nv).
      cbn [error_bound]. rewrite (run_result V e x Ex), Ra. split; [exact HA|]. split; [exact HB|]. exists v. split; [exists r; auto|exact Nv].
    - pose proof (run_result V _ a E) as Ra. rewrite ieval_bin in E. apply bind_inv in E as (x & Ex & E). apply bind_inv in E as (y & Ey & E). cbn [analysable] in An. destruct An as (_ & A1 & A2 & A3).
      destruct (IHe x A1 Ex) as (Hx & Px & r & Hr & Nr). destruct (IHf y A2 Ey) as (Hy & Py & s & Hs & Ns).
      pose proof (bin_accuracy prec emax Hp He dbg b x y a _ _ r s Hx Hy Px Py (A3 y Ey) E Fa Nr Ns) as (HA & HB & v & Hv & Nv).
      cbn [error_bound]. rewrite (run_result V e x Ex), (run_result V f y Ey), Ra. split; [exact HA|]. split; [exact HB|]. exists v. split; [exists r, s; auto|exact Nv].
    - cbn [analysable] in An. destruct An as (_ & []).
    Unshelve. all: exact [].
  Qed.

  (** ** Numbers *)
  Lemma scalar_run vs e w : analysable L acc dbg (map Sc vs) e -> seval (Some M) dbg vs e = Ret w -> ieval (Some M) dbg (map Sc vs) e = Ret (Sc w).
  Proof.
    revert w. induction e as [i|c|u e IH|b e IHe f IHf|t e IHe f IHf]; intros w An E; cbn [analysable] in An.
    - cbn [seval ieval] in *. unfold slookup in E. unfold ilookup. rewrite nth_error_map. destruct (nth_error vs i); [|discriminate]. injection E as <-. reflexivity.
    - cbn [seval ieval] in *. injection E as <-. reflexivity.
    - rewrite seval_un in E. apply bind_inv in E as (v & Ev & E). rewrite ieval_un, (IH v (proj1 (proj2 An)) Ev). cbn [bind lift1]. now rewrite E.
    - rewrite seval_bin in E. apply bind_inv in E as (v & Ev & E). apply bind_inv in E as (v' & Ev' & E). destruct An as (_ & A1 & A2 & _).
      rewrite ieval_bin, (IHe v A1 Ev), (IHf v' A2 Ev'). cbn [bind lift2]. now rewrite E.
    - destruct An as [_ []].
    Unshelve. all: exact [].
  Qed.
  Lemma scalar_args (vs : list F) : Forall (fun v => is_finite (v : binary_float prec emax) = true) vs -> Forall finite_arg (map Sc vs) /\ Forall2 within (map Sc vs) (map (fun v => B2R (v : binary_float prec emax)) vs).
  Proof.
    intros H. split; induction H as [|v vs Hv H IH]; cbn [map]; constructor; auto; [split; [exact Hv|split; [exact Hv|apply Rle_refl]]|split; apply Rle_refl].
  Qed.
  Theorem scalar_accuracy (vs : list F) e (w : F) : Forall (fun v => is_finite (v : binary_float prec emax) = true) vs -> analysable L acc dbg (map Sc vs) e -> seval (Some M) dbg vs e = Ret w ->
    exists v, exact (map (fun v => B2R (v : binary_float prec emax)) vs) e v /\ Rabs (B2R (w : binary_float prec emax) - v) <= error_bound L acc dbg (map Sc vs) e.
  Proof.
    intros Fv An E. destruct (scalar_args vs Fv) as [H1 H2]. destruct (expression_accuracy _ _ e _ H1 H2 An (scalar_run vs e w An E)) as (_ & _ & v & Hv & N1 & N2).
    exists v. split; [exact Hv|]. cbn [alower aupper] in *. apply Rabs_le. lra.
  Qed.

  (** ** End points of single-use expressions *)
  Let HO : ord_laws F := denotes_ord (float_denotes prec emax Hp He).
  Lemma lowers V : Forall finite_arg V -> Forall2 within V (map (fun x : arg F => B2R (alower x : binary_float prec emax)) V).
  Proof. induction 1 as [|x V (F1 & F2 & O) H IH]; cbn [map]; constructor; auto. split; [apply Rle_refl|exact O]. Qed.
  Lemma analysable_finite V e a : Forall finite_arg V -> analysable L acc dbg V e -> ieval (Some M) dbg V e = Ret a -> finite_arg a /\ 0 <= error_bound L acc dbg V e.
  Proof. intros HV An E. destruct (expression_accuracy V _ e a HV (lowers V HV) An E) as (A & B & _). auto. Qed.
  Lemma analysable_clean V e : Forall finite_arg V -> analysable L acc dbg V e -> eclean (Some M) dbg V e.
  Proof.
    intros HV. induction e as [i|c|u e IH|b e IHe f IHf|t e IHe f IHf]; intros An;
      (assert (N : forall e, analysable L acc dbg V e -> number (ieval (Some M) dbg V e)) by (intros e0 A x E; exact (finite_proper prec emax Hp He x (proj1 (analysable_finite V e0 x HV A E))))).
    - split; [exact (N _ An)|exact I].
    - split; [exact (N _ An)|exact I].
    - pose proof An as An'. cbn [analysable] in An'. destruct An' as (_ & A1 & A2). split; [exact (N _ An)|]. split; [exact (IH A1)|]. intros x Ex. specialize (A2 x Ex).
      destruct (analysable_finite V e x HV A1 Ex) as [(F1 & F2 & O) P]. destruct u; cbn [domain1 un_safe] in *; try exact I; try contradiction; apply (nonneg_real prec emax Hp He); auto; lra.
    - pose proof An as An'. cbn [analysable] in An'. destruct An' as (_ & A1 & A2 & A3). split; [exact (N _ An)|]. split; [exact (IHe A1)|]. split; [exact (IHf A2)|]. intros y Ey. specialize (A3 y Ey).
      destruct b; cbn [domain2 bin_safe] in *; try exact I. destruct (analysable_finite V f y HV A2 Ey) as [Fy _]. intros (v & Hv & Z). apply (proj1 A3).
      destruct (RoundProofs.within_el prec emax Hp He y v Fy Hv) as [Fv W]. assert (E : B2R v = 0) by (apply (eq_zero prec emax Hp He v Fv); exact Z). now rewrite E in W.
    - cbn [analysable] in An. destruct An as [_ []].
  Qed.

  (** The bound of an element is at most the bound of the interval. *)
  Lemma point_magnitude (x : arg F) (v : F) : within x (B2R v) -> magnitude (Sc v) <= magnitude x.
  Proof. intros W. unfold magnitude at 1. cbn [alower aupper]. rewrite Rmax_left by lra. now apply within_magnitude. Qed.
  Lemma point_mignitude (x : arg F) (v : F) : ~ within x 0 -> within x (B2R v) -> mignitude x <= mignitude (Sc v).
  Proof. intros Z W. unfold mignitude at 2. cbn [alower aupper]. rewrite Rmin_left by lra. now apply within_mignitude. Qed.
  Lemma point_roundoff (x : arg F) (v : F) : within x (B2R v) -> roundoff (Sc v) <= roundoff x.
  Proof. intros W. unfold roundoff. apply (half_ulp_le prec emax Hp). rewrite !Rabs_pos_eq by (apply (magnitude_pos prec emax Hp He)). now apply point_magnitude. Qed.
  Lemma div_mono n n' d d' : 0 <= n <= n' -> 0 < d' <= d -> n / d <= n' / d'.
  Proof. intros H K. apply Rmult_le_compat; [lra|left; apply Rinv_0_lt_compat; lra|lra|apply Rinv_le; lra]. Qed.
  Lemma bin_bound_mono b dx dy dx' dy' (x y a : arg F) (v w z : F) : 0 <= dx' <= dx -> 0 <= dy' <= dy -> bin_safe b dy y ->
    within x (B2R v) -> within y (B2R w) -> within a (B2R z) -> bin_bound b dx' dy' (Sc v) (Sc w) (Sc z) <= bin_bound b dx dy x y a.
  Proof.
    intros Dx Dy Sf Wv Ww Wz. pose proof (point_magnitude x v Wv) as Mx. pose proof (point_magnitude y w Ww) as My. pose proof (point_roundoff a z Wz) as Ra.
    pose proof (magnitude_pos prec emax Hp He (Sc v)) as P1. pose proof (magnitude_pos prec emax Hp He (Sc w)) as P2.
    assert (MM : forall p q p' q', 0 <= p <= p' -> 0 <= q <= q' -> p * q <= p' * q') by (intros; apply Rmult_le_compat; lra).
    destruct b; cbn [bin_bound bin_safe] in *.
    - lra.
    - lra.
    - pose proof (MM dx' (magnitude (Sc w)) dx (magnitude y)). pose proof (MM (magnitude (Sc v)) dy' (magnitude x) dy). pose proof (MM dx' dy' dx dy). lra.
    - destruct Sf as [Z S]. pose proof (point_mignitude y w Z Ww) as G. apply Rplus_le_compat; [|exact Ra]. apply div_mono; [|lra].
      assert (Q : 0 <= magnitude (Sc v) / mignitude (Sc w) <= magnitude x / mignitude y).
      { split; [apply Rmult_le_pos; [exact P1|left; apply Rinv_0_lt_compat; lra]|apply div_mono; lra]. }
      assert (0 <= magnitude (Sc v) / mignitude (Sc w) * dy') by (apply Rmult_le_pos; lra). pose proof (MM _ dy' _ dy Q). lra.
    - apply Rmax_case; [eapply Rle_trans; [apply Dx|apply Rmax_l]|eapply Rle_trans; [apply Dy|apply Rmax_r]].
    - apply Rmax_case; [eapply Rle_trans; [apply Dx|apply Rmax_l]|eapply Rle_trans; [apply Dy|apply Rmax_r]].
  Qed.
  Lemma un_bound_mono u d d' (x a : arg F) (v z : F) : 0 <= d' <= d -> un_safe L acc u d x -> within x (B2R v) -> within a (B2R z) ->
    un_bound acc u d' (Sc v) (Sc z) <= un_bound acc u d x a.
  Proof.
    intros Dx Sf Wv Wz. pose proof (point_magnitude x v Wv) as Mx. pose proof (point_roundoff a z Wz) as Ra. pose proof (magnitude_pos prec emax Hp He (Sc v)) as P1.
    assert (MM : forall p q p' q', 0 <= p <= p' -> 0 <= q <= q' -> 0 <= p * q <= p' * q') by (intros; split; [apply Rmult_le_pos|apply Rmult_le_compat]; lra).
    destruct u; cbn [un_bound un_safe] in *; try contradiction; try lra.
    - pose proof (MM d' (2 * magnitude (Sc v) + d') d (2 * magnitude x + d)). lra.
    - set (m := magnitude (Sc v)) in *. set (m' := magnitude x) in *. pose proof (MM m m m' m' ltac:(lra) ltac:(lra)) as Q1. pose proof (MM m d' m' d ltac:(lra) ltac:(lra)) as Q2. pose proof (MM d' d' d d ltac:(lra) ltac:(lra)) as Q3.
      pose proof (MM d' (3 * m * m + 3 * m * d' + d' * d') d (3 * m' * m' + 3 * m' * d + d * d) ltac:(lra) ltac:(lra)) as Q4.
      assert (H : half_ulp prec emax (m * m) <= half_ulp prec emax (m' * m')) by (apply half_ulp_le; auto; rewrite !Rabs_pos_eq by lra; lra).
      pose proof (MM m (half_ulp prec emax (m * m)) m' (half_ulp prec emax (m' * m')) ltac:(lra) (conj (half_ulp_pos prec emax _) H)). lra.
    - destruct Wv as [V1 V2]. cbn [alower aupper]. apply Rplus_le_compat; [|exact Ra]. destruct (Req_dec (B2R (alower x)) 0) as [Z|Z].
      + assert (d = 0) by lra. assert (d' = 0) by lra. subst. unfold Rdiv. rewrite !Rmult_0_l. lra.
      + apply div_mono; [lra|]. assert (0 < sqrt (B2R (alower x))) by (apply sqrt_lt_R0; lra). pose proof (sqrt_pos (B2R (alower x) - d)).
        pose proof (sqrt_le_1 (B2R (alower x)) (B2R v) ltac:(lra) ltac:(lra) V1). pose proof (sqrt_le_1 (B2R (alower x) - d) (B2R v - d') ltac:(lra) ltac:(lra) ltac:(lra)). lra.
    - destruct Wv as [V1 V2]. cbn [alower aupper]. assert (EM : forall p q, p <= q -> exp p <= exp q) by (intros p q [H| ->]; [left; now apply exp_increasing|apply Rle_refl]).
      pose proof (EM _ _ V2). pose proof (EM _ _ (proj2 Dx)). pose proof (EM _ _ (proj1 Dx)) as E1. rewrite exp_0 in E1. pose proof (exp_pos (B2R v)).
      pose proof (MM (exp (B2R v)) (exp d' - 1) (exp (B2R (aupper x))) (exp d - 1)). lra.
    - destruct Wv as [V1 V2]. cbn [alower aupper]. destruct Sf as [Sf _]. apply Rplus_le_compat_r. apply div_mono; lra.
  Qed.
  Lemma un_safe_point u d d' (x : arg F) (v : F) : 0 <= d' <= d -> un_safe L acc u d x -> within x (B2R v) -> un_safe L acc u d' (Sc v).
  Proof.
    intros D S W. assert (S1 : forall f g eps, fn_within (Hp := Hp) (He := He) eps f g x -> fn_within (Hp := Hp) (He := He) eps f g (Sc v)).
    { intros f g eps H w Fw [W1 W2]. cbn [alower aupper] in *. apply H; auto. replace (B2R w) with (B2R v) by lra. exact W. }
    pose proof W as [W1 W2]. destruct u; cbn [un_safe alower aupper] in *; try exact S; try lra; intuition; lra.
  Qed.
  Lemma bin_safe_point b d d' (y : arg F) (v : F) : 0 <= d' <= d -> bin_safe b d y -> within y (B2R v) -> bin_safe b d' (Sc v).
  Proof.
    intros D S W. destruct b; cbn [bin_safe] in *; try exact S. destruct S as [Z S]. split.
    - intros [K1 K2]. cbn [alower aupper] in *. apply Z. replace 0 with (B2R v) by lra. exact W.
    - pose proof (point_mignitude y v Z W). lra.
  Qed.
  Lemma points (Xs : list (ivl F)) (xs : list F) e a : Forall finite_arg (map Iv Xs) -> Forall2 el Xs xs -> efuns (LangSpec.monotone (Some M)) e -> analysable L acc dbg (map Iv Xs) e ->
    ieval (Some M) dbg (map Iv Xs) e = Ret a ->
    exists w : F, seval (Some M) dbg xs e = Ret w /\ is_finite (w : binary_float prec emax) = true /\ within a (B2R w) /\ analysable L acc dbg (map Sc xs) e
      /\ 0 <= error_bound L acc dbg (map Sc xs) e <= error_bound L acc dbg (map Iv Xs) e.
  Proof.
    intros HV HX. pose (HP := pt_math F M (fm_float prec emax Hp He L)).
    assert (G : forall e a, efuns (LangSpec.monotone (Some M)) e -> analysable L acc dbg (map Iv Xs) e -> ieval (Some M) dbg (map Iv Xs) e = Ret a ->
      finite_arg a /\ exists w : F, seval (Some M) dbg xs e = Ret w /\ is_finite (w : binary_float prec emax) = true /\ within a (B2R w)).
    { intros e0 a0 Fu An E. destruct (analysable_finite _ e0 a0 HV An E) as [Fa _]. split; [exact Fa|].
      destruct (expression_included HP dbg Xs xs e0 a0 HX (analysable_clean _ e0 HV An) Fu E) as (w & Ew & Hw). exists w. split; [exact Ew|].
      apply (RoundProofs.within_el prec emax Hp He a0 w Fa). destruct a0 as [c|Z]; [|exact Hw]. subst w. exact (conj (finite_proper prec emax Hp He _ Fa) (finite_proper prec emax Hp He _ Fa)). }
    revert a. induction e as [i|c|u e IH|b e IHe f IHf|t e IHe f IHf]; intros a Fu An E; destruct (G _ a Fu An E) as (Fa & w & Ew & Fw & Ww); exists w; (split; [exact Ew|]); (split; [exact Fw|]); (split; [exact Ww|]).
    - cbn [analysable error_bound]. split; [|lra]. split; [|exact I]. intros a' E'. cbn [ieval seval] in *. unfold ilookup, slookup in *. rewrite nth_error_map in E'. destruct (nth_error xs i); [|discriminate]. injection E' as <-. injection Ew as <-. split; exact Fw.
    - cbn [analysable error_bound]. split; [|lra]. split; [|exact I]. intros a' E'. cbn [ieval seval] in *. injection E' as <-. injection Ew as <-. split; exact Fw.
    - pose proof (run_result (map Iv Xs) _ a E) as Ra. cbn [efuns] in Fu. destruct Fu as [Fu1 Fu]. pose proof An as An'. cbn [analysable] in An'. destruct An' as (_ & A1 & A2).
      pose proof E as E0. rewrite ieval_un in E0. apply bind_inv in E0 as (x & Ex & E0). destruct (IH x Fu A1 Ex) as (v & Ev & Fv & Wv & Av & Bv).
      pose proof (scalar_run xs e v Av Ev) as Sv.
      assert (An2 : analysable L acc dbg (map Sc xs) (EUn u e)).
      { cbn [analysable]. split; [|split; [exact Av|]].
        - intros a' E'. rewrite ieval_un, Sv in E'. cbn [bind lift1] in E'. rewrite seval_un, Ev in Ew. cbn [bind] in Ew. rewrite Ew in E'. cbn [bind] in E'. injection E' as <-. split; exact Fw.
        - intros x' Ex'. rewrite Sv in Ex'. injection Ex' as <-. exact (un_safe_point u _ _ x v Bv (A2 x Ex) Wv). }
      split; [exact An2|]. pose proof (scalar_run xs _ w An2 Ew) as Sw.
      assert (FS : Forall finite_arg (map Sc xs)) by (apply (scalar_args xs); clear - HX HV; induction HX as [|X x0 Xs xs Hx HX IH]; constructor; inversion HV; subst; auto; exact (proj1 (RoundProofs.within_el prec emax Hp He (Iv X) x0 H1 Hx))).
      split; [exact (proj2 (analysable_finite _ _ _ FS An2 Sw))|]. cbn [error_bound]. rewrite (run_result (map Iv Xs) e x Ex), Ra, (run_result (map Sc xs) e _ Sv), (run_result (map Sc xs) _ _ Sw).
      exact (un_bound_mono u _ _ x a v w Bv (A2 x Ex) Wv Ww).
    - pose proof (run_result (map Iv Xs) _ a E) as Ra. cbn [efuns] in Fu. destruct Fu as [Fu1 Fu2]. pose proof An as An'. cbn [analysable] in An'. destruct An' as (_ & A1 & A2 & A3).
      pose proof E as E0. rewrite ieval_bin in E0. apply bind_inv in E0 as (x & Ex & E0). apply bind_inv in E0 as (y & Ey & E0).
      destruct (IHe x Fu1 A1 Ex) as (v & Ev & Fv & Wv & Av & Bv). destruct (IHf y Fu2 A2 Ey) as (v' & Ev' & Fv' & Wv' & Av' & Bv').
      pose proof (scalar_run xs e v Av Ev) as Sv. pose proof (scalar_run xs f v' Av' Ev') as Sv'.
      assert (An2 : analysable L acc dbg (map Sc xs) (EBin b e f)).
      { cbn [analysable]. split; [|split; [exact Av|split; [exact Av'|]]].
        - intros a' E'. rewrite ieval_bin, Sv, Sv' in E'. cbn [bind lift2] in E'. rewrite seval_bin, Ev, Ev' in Ew. cbn [bind] in Ew. rewrite Ew in E'. cbn [bind] in E'. injection E' as <-. split; exact Fw.
        - intros x' Ex'. rewrite Sv' in Ex'. injection Ex' as <-. exact (bin_safe_point b _ _ y v' Bv' (A3 y Ey) Wv'). }
      split; [exact An2|]. pose proof (scalar_run xs _ w An2 Ew) as Sw.
      assert (FS : Forall finite_arg (map Sc xs)) by (apply (scalar_args xs); clear - HX HV; induction HX as [|X x0 Xs xs Hx HX IH]; constructor; inversion HV; subst; auto; exact (proj1 (RoundProofs.within_el prec emax Hp He (Iv X) x0 H1 Hx))).
      split; [exact (proj2 (analysable_finite _ _ _ FS An2 Sw))|]. cbn [error_bound]. rewrite (run_result (map Iv Xs) e x Ex), (run_result (map Iv Xs) f y Ey), Ra, (run_result (map Sc xs) e _ Sv), (run_result (map Sc xs) f _ Sv'), (run_result (map Sc xs) _ _ Sw).
      exact (bin_bound_mono b _ _ _ _ x y a v v' w Bv Bv' (A3 y Ey) Wv Wv' Ww).
    - cbn [analysable] in An. destruct An as [_ []].
    Unshelve. all: exact [].
  Qed.
  Theorem single_use_accuracy (Xs : list (ivl F)) e a : Forall finite_arg (map Iv Xs) -> plain e = true -> single_use e -> efuns (LangSpec.monotone (Some M)) e -> analysable L acc dbg (map Iv Xs) e ->
    ieval (Some M) dbg (map Iv Xs) e = Ret a ->
    (exists rs v, Forall2 within (map Iv Xs) rs /\ exact rs e v /\ Rabs (B2R (alower a) - v) <= error_bound L acc dbg (map Iv Xs) e)
    /\ (exists rs v, Forall2 within (map Iv Xs) rs /\ exact rs e v /\ Rabs (B2R (aupper a) - v) <= error_bound L acc dbg (map Iv Xs) e).
  Proof.
    intros HV Pl Su Fu An E. pose (HP := pt_math F M (fm_float prec emax Hp He L)).
    assert (PX : Forall proper Xs). { clear - HV. induction Xs as [|X Xs IH]; constructor; inversion HV; subst; auto. exact (finite_proper prec emax Hp He (Iv X) H1). }
    assert (G : forall w c, values (Some M) dbg Xs e w -> o_eq w c = true -> is_finite (c : binary_float prec emax) = true -> exists rs v, Forall2 within (map Iv Xs) rs /\ exact rs e v /\ Rabs (B2R (c : binary_float prec emax) - v) <= error_bound L acc dbg (map Iv Xs) e).
    { intros w c (xs & Hxs & Ew) Q Fc. destruct (points Xs xs e a HV Hxs Fu An E) as (w' & Ew' & Fw & _ & An' & B). rewrite Ew in Ew'. injection Ew' as <-.
      assert (Fx : Forall (fun v => is_finite (v : binary_float prec emax) = true) xs /\ Forall2 within (map Iv Xs) (map (fun v => B2R (v : binary_float prec emax)) xs)).
      { clear - Hxs HV. induction Hxs as [|X x Xs xs Hx Hxs IH]; cbn [map] in *; [split; constructor|]. inversion HV; subst. destruct (IH H2) as [I1 I2]. destruct (RoundProofs.within_el prec emax Hp He (Iv X) x H1 Hx) as [K1 K2]. split; constructor; auto. }
      destruct (scalar_accuracy xs e w (proj1 Fx) An' Ew) as (v & Hv & K). exists (map (fun v => B2R (v : binary_float prec emax)) xs), v. split; [apply Fx|]. split; [exact Hv|].
      assert (Ec : B2R (c : binary_float prec emax) = B2R (w : binary_float prec emax)). { cbn in Q. rewrite Beqb_correct in Q by assumption. destruct (Req_bool_spec (B2R w) (B2R c)); [auto|discriminate]. }
      rewrite Ec. lra. }
    destruct (analysable_finite _ e a HV An E) as [(F1 & F2 & _) _].
    destruct (single_use_bounds HP dbg Xs e a PX Pl Su (analysable_clean _ e HV An) Fu E) as (_ & (v & Hv & Ev) & (v' & Hv' & Ev')).
    split; [exact (G v _ Hv Ev F1)|exact (G v' _ Hv' Ev' F2)].
  Qed.
End Expressions.
