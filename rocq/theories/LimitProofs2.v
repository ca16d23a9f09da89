(** Subdivision of the inputs in exact real arithmetic: the widths of the results go to zero with the widths of the inputs. *)
From Coq Require Import Reals Bool List Lra Psatz.
From Flocq Require Import Core.
From Verif Require Import Outcome SetModel Spec Num NumLaws XReal RealNum RealMath IntervalModel IvlSpec IvlProofs ArithProofs ArithProofs2 ArithProofs3 ArithProofs4 ArithProofs5
  ConstrainModel CondSpec ConstrainProofs ConstrainProofs2 ConstrainProofs3 ConstrainProofs4 ConstrainProofs5 ConstrainWrap MathModel FloatMathProofs MathSpec MathProofs MonoProofs MathWrap ValueTypes LangModel LangSpec LangProofs LangProofs2 IsoSpec IsoProofs IsoProofs2 IsoProofs4 LimitSpec LimitProofs.
Import ListNotations.
Open Scope R_scope.

Section Conv.
  Variable dbg : bool.
  Notation N := real_num.
  Notation M := (Some real_math).
  Let HP : prog_type N M := pt_math N real_math fm_real.
  Let HN := prog_laws N M HP.
  Let HO := nl_ord N HN.

  Lemma real_monotone u : monotone M u.
  Proof.
    intros m E. injection E as <-. destruct u; try exact I; [exact real_cbrt_inc|exact real_exp_inc|exact real_log_inc|exact real_atan_inc|exact real_asin_inc|exact real_acos_dec].
  Qed.
  Lemma all_monotone (e : expr N) : efuns (monotone M) e.
  Proof.
    refine (proj1 (expr_test_ind N (fun e => efuns (monotone M) e) (fun t => tfuns (monotone M) t) _ _ _ _ _ _ _ _ _) e); cbn; auto using real_monotone.
  Qed.

  (** ** Numbers *)
  Definition fun1 (u : unop) : R -> R :=
    match u with
    | UNeg => Ropp | USquare => fun r => r * r | UCube => fun r => r * r * r | UAbs => Rabs | USqrt => sqrt | UCbrt => Rcbrt | UExp => exp | ULog => ln
    | UAtan => atan | UAsin => asin | UAcos => acos | _ => fun r => r
    end.
  Definition dom1 (u : unop) (r : R) : Prop :=
    match u with USqrt => 0 <= r | ULog => 0 < r | UAsin | UAcos => -1 <= r <= 1 | _ => True end.
  Lemma le_fin a b : @o_le N (XFin a) (XFin b) = true <-> a <= b.
  Proof. apply TrigProofs.real_le. Qed.
  Lemma sun_fin u r : continuous_fun u = true -> dom1 u r -> sun M dbg u (XFin r : N) = Ret (XFin (fun1 u r)).
  Proof.
    intros C D. destruct u; try discriminate C; cbn in D; try reflexivity; cbn [sun with_math].
    - unfold ssqrt. rewrite expects_debug_true by (now apply le_fin). cbn. rewrite Rlt_bool_false by exact D. reflexivity.
    - unfold slog. rewrite expects_debug_true by (apply le_fin; lra). cbn. rewrite Rcompare_Gt by exact D. reflexivity.
    - unfold sasin. rewrite expects_debug_true by (apply andb_true_intro; split; apply le_fin; lra). cbn. rewrite !Rle_bool_true by lra. reflexivity.
    - unfold sacos. rewrite expects_debug_true by (apply andb_true_intro; split; apply le_fin; lra). cbn. rewrite !Rle_bool_true by lra. reflexivity.
  Qed.
  Lemma uc_fun u l h : dom1 u l -> dom1 u h -> uc1 (fun1 u) l h.
  Proof.
    intros Dl Dh. destruct u; cbn in *; auto using uc1_id, uc1_opp, uc1_square, uc1_cube, uc1_abs, uc1_sqrt, uc1_cbrt, uc1_exp, uc1_ln, uc1_atan; [apply uc1_asin|apply uc1_acos]; lra.
  Qed.
  Lemma dom1_between u l h r : dom1 u l -> dom1 u h -> l <= r <= h -> dom1 u r.
  Proof. intros Dl Dh. destruct u; cbn in *; lra. Qed.
  Definition fun2 (b : binop) : R -> R -> R := match b with BAdd => Rplus | BSub => Rminus | BMul => Rmult | BDiv => Rdiv | BMin => Rmin | BMax => Rmax end.
  Definition dom2 (b : binop) (l h : R) : Prop := match b with BDiv => 0 < l \/ h < 0 | _ => True end.
  Lemma sbin_fin b r s : (b = BDiv -> s <> 0) -> sbin b (XFin r : N) (XFin s : N) = Ret (XFin (fun2 b r s)).
  Proof.
    intros D. destruct b; try reflexivity.
    - cbn. rewrite Req_bool_false by auto. reflexivity.
    - cbn [sbin fun2]. now rewrite TrigProofs.real_omin.
    - cbn [sbin fun2]. now rewrite TrigProofs.real_omax.
  Qed.
  Lemma uc_bin b l h l' h' : dom2 b l' h' -> uc2 (fun2 b) l h l' h'.
  Proof. intros D. destruct b; cbn in *; auto using uc2_add, uc2_sub, uc2_mul, uc2_div, uc2_min, uc2_max. Qed.

  (** ** Intervals *)
  Lemma el_fin (l u : R) (v : N) : o_le (XFin l : N) v = true -> o_le v (XFin u : N) = true -> exists r, v = XFin r /\ l <= r <= u.
  Proof. intros A B. destruct v as [| |r|]; try discriminate. exists r. split; [reflexivity|]. apply le_fin in A, B. lra. Qed.
  Lemma bounded_el (x : arg N) v : bounded x -> ael x v -> exists l u r, alower x = XFin l /\ aupper x = XFin u /\ v = XFin r /\ l <= r <= u.
  Proof. intros (l & u & El & Eu) [A B]. rewrite El in A. rewrite Eu in B. destruct (el_fin l u v A B) as (r & -> & H). exists l, u, r. auto. Qed.
  Lemma sub_bounded (x x' : arg N) : aproper x -> asubset x x' -> bounded x' -> exists l' u' l u, alower x' = XFin l' /\ aupper x' = XFin u' /\ alower x = XFin l /\ aupper x = XFin u /\ l' <= l /\ l <= u /\ u <= u'.
  Proof.
    intros P S B. assert (A1 : ael x (alower x)) by (split; [|exact P]; unfold aproper in P; clear - HO P; ord HO). assert (A2 : ael x (aupper x)) by (split; [exact P|]; unfold aproper in P; clear - HO P; ord HO).
    destruct (bounded_el x' _ B (S _ A1)) as (l' & u' & l & E1 & E2 & E3 & L1), (bounded_el x' _ B (S _ A2)) as (l1 & u1 & u & E4 & E5 & E6 & L2).
    exists l', u', l, u. repeat split; auto; rewrite E1 in E4; rewrite E2 in E5; injection E4 as <-; injection E5 as <-; try lra.
    unfold aproper in P. rewrite E3, E6 in P. now apply le_fin in P.
  Qed.
  Lemma hull_narrow (P : N -> Prop) (Z : ivl N) w : is_hull P Z -> (forall v v', P v -> P v' -> exists r r', v = XFin r /\ v' = XFin r' /\ Rabs (r - r') <= w) -> narrow w (Iv Z).
  Proof.
    intros (_ & (v & Pv & Ev) & (v' & Pv' & Ev')) H. destruct (H v' v Pv' Pv) as (r' & r & -> & -> & L).
    cbn in Ev, Ev'. apply xeq_iff in Ev as [Ev _]. apply xeq_iff in Ev' as [Ev' _]. exists r, r'. split; [symmetry; exact Ev|]. split; [symmetry; exact Ev'|].
    pose proof (Rle_abs (r' - r)). lra.
  Qed.

  Lemma hull_of_inv (f : N -> outcome N) F X Z : hull_of f F X -> F = Ret Z -> is_hull (img1 f X) Z.
  Proof. intros (Z1 & E1 & H) E. rewrite E in E1. now injection E1 as <-. Qed.
  Lemma iun_hull u X Z : continuous_fun u = true -> proper X -> domain1 u (Iv X) -> iun M dbg u X = Ret Z -> is_hull (img1 (sun M dbg u) X) Z.
  Proof.
    intros C HX D E. destruct u; try discriminate C; cbn [iun with_math] in E; cbn in D.
    - unfold iplus in E. apply bind_inv in E as (tt0 & _ & E). injection E as <-. split; [intros v (x & Hx & K); injection K as <-; exact Hx|].
      split; [exists (lo X)|exists (hi X)]; (split; [eexists; split; [|reflexivity]|]); try exact (el_lower HO X HX); try exact (el_upper HO X HX); unfold proper in HX; clear - HO HX; ord HO.
    - destruct (neg_hull HN dbg X HX) as (_ & B & _). exact (proj2 (B Z E)).
    - exact (proj2 (proj2 (square_ok HN dbg X HX) Z E)).
    - exact (proj2 (proj2 (icube_ok HN dbg X HX) Z E)).
    - exact (proj2 (proj2 (iabs_ok HN dbg X HX) Z E)).
    - exact (hull_of_inv _ _ X Z (fp_sqrt fm_real dbg X HX D) E).
    - exact (hull_of_inv _ _ X Z (cbrt_hull HO real_math dbg X HX real_cbrt_inc) E).
    - exact (hull_of_inv _ _ X Z (exp_hull HO real_math dbg X HX real_exp_inc) E).
    - exact (hull_of_inv _ _ X Z (log_hull HO real_math dbg X HX D real_log_inc) E).
    - exact (hull_of_inv _ _ X Z (atan_hull HO real_math dbg X HX real_atan_inc) E).
    - destruct D as [D1 D2]. exact (hull_of_inv _ _ X Z (asin_hull HO real_math dbg X HX D1 D2 real_asin_inc) E).
    - destruct D as [D1 D2]. exact (hull_of_inv _ _ X Z (acos_hull HO real_math dbg X HX D1 D2 real_acos_dec) E).
  Qed.
  Lemma domain_dom u X Z l : continuous_fun u = true -> proper X -> domain1 u (Iv X) -> iun M dbg u X = Ret Z -> bounded (Iv Z) -> el X (XFin l) -> dom1 u l.
  Proof.
    intros C HX D E B Hl.
    assert (W : within_one (lo X) -> within_one (hi X) -> -1 <= l <= 1).
    { intros A1 A2. pose proof (within_el HP X (XFin l) A1 A2 Hl) as [K1 K2]. apply le_fin in K1, K2. lra. }
    destruct u; try exact I; cbn in D |- *; try exact (W (proj1 D) (proj2 D)).
    - unfold nonneg in D. destruct Hl as [Hl _]. apply le_fin. clear - HO D Hl. ord HO.
    - assert (D0 : 0 <= l) by (unfold nonneg in D; destruct Hl as [Hl _]; apply le_fin; clear - HO D Hl; ord HO).
      destruct (Rle_lt_or_eq_dec _ _ D0) as [|<-]; [assumption|]. exfalso. destruct (iun_hull ULog X Z C HX D E) as [H _].
      assert (K : el Z (XNinf : N)). { apply H. exists (XFin 0). split; [exact Hl|]. cbn [sun with_math]. unfold slog. rewrite expects_debug_true by (apply le_fin; lra). cbn. rewrite Rcompare_Eq by reflexivity. reflexivity. }
      destruct (bounded_el (Iv Z) XNinf B K) as (? & ? & ? & _ & _ & K' & _). discriminate.
  Qed.

  Lemma ibin_hull b (x y : arg N) Z : aproper x -> aproper y -> domain2 b y -> ibin dbg b x y = Ret Z -> proper Z -> is_hull (img2 (sbin b) x y) Z.
  Proof.
    intros Hx Hy D E PZ.
    assert (G : forall f, op_ok f (ibin dbg b x y) x y -> is_hull (img2 f x y) Z).
    { intros f [_ B]. destruct (B Z E) as (_ & Na & H). apply H. intros K. destruct (Na K) as [L _]. apply (nan_iff HN) in L. apply L. exact (el_ok HO Z _ (el_lower HO Z PZ)). }
    destruct b; cbn [ibin] in *.
    - exact (G _ (add_op_ok HN dbg x y Hx Hy)).
    - exact (G _ (sub_op_ok HN dbg x y Hx Hy)).
    - exact (G _ (mul_op_ok HN dbg x y Hx Hy)).
    - apply (zero_free_iff HN y Hy) in D. exact (G _ (div_zero_free HN dbg x y Hx Hy D)).
    - destruct (imin_hull HO dbg x y Hx Hy) as (Z1 & E1 & H). rewrite E in E1. injection E1 as <-. exact H.
    - destruct (imax_hull HO dbg x y Hx Hy) as (Z1 & E1 & H). rewrite E in E1. injection E1 as <-. exact H.
  Qed.

  Lemma narrow_scalar (v : N) w : 0 <= w -> bounded (Sc v) -> narrow w (Sc v).
  Proof. intros W (l & u & El & Eu). exists l, u. cbn in El, Eu. rewrite El in Eu. injection Eu as <-. split; [exact El|]. split; [exact El|]. lra. Qed.
  Lemma narrow_el (x : arg N) w v v' : narrow w x -> ael x v -> ael x v' -> exists r r', v = XFin r /\ v' = XFin r' /\ Rabs (r - r') <= w.
  Proof.
    intros (l & u & El & Eu & W) [A B] [A' B']. rewrite El in A, A'. rewrite Eu in B, B'. destruct (el_fin l u v A B) as (r & -> & Hr), (el_fin l u v' A' B') as (r' & -> & Hr').
    exists r, r'. split; [reflexivity|]. split; [reflexivity|]. apply Rabs_le. lra.
  Qed.

  Lemma conv_un u (x' a' : arg N) : continuous_fun u = true -> aproper x' -> domain1 u x' -> bounded x' -> lift1 M dbg u x' = Ret a' -> bounded a' ->
    forall eps, 0 < eps -> exists delta, 0 < delta /\ forall x a, aproper x -> ale x x' -> narrow delta x -> lift1 M dbg u x = Ret a -> narrow eps a.
  Proof.
    intros C Px' D Bx' E' Ba' eps He. destruct x' as [c'|X'].
    - exists 1. split; [lra|]. intros [c|X] a Px L _ E; [|destruct L]. cbn in L. subst c'. rewrite E in E'. injection E' as <-. cbn in E. apply bind_inv in E as (r & _ & E). injection E as <-. apply narrow_scalar; [lra|exact Ba'].
    - cbn [lift1] in E'. apply bind_inv in E' as (Z' & E' & K). injection K as <-. pose proof Bx' as (l' & u' & El' & Eu'). cbn in El', Eu'.
      assert (Dl : dom1 u l') by (apply (domain_dom u X' Z' l' C Px' D E' Ba'); rewrite <- El'; exact (el_lower HO X' Px')).
      assert (Du : dom1 u u') by (apply (domain_dom u X' Z' u' C Px' D E' Ba'); rewrite <- Eu'; exact (el_upper HO X' Px')).
      destruct (uc_fun u l' u' Dl Du eps He) as (d & Hd & H). exists d. split; [exact Hd|].
      intros [c|X] a Px L Nx E; [destruct L|]. cbn [lift1] in E. apply bind_inv in E as (Z & E & K). injection K as <-.
      destruct (iun_iso HP dbg u X X' Z' Px L D (real_monotone u) E') as [_ Dn].
      apply (hull_narrow _ Z eps (iun_hull u X Z C Px Dn E)). intros v v' (p & Hp & Ep) (q & Hq & Eq).
      destruct (narrow_el (Iv X) d p q Nx Hp Hq) as (r & s & -> & -> & Rs).
      assert (Ir : l' <= r <= u') by (destruct (bounded_el (Iv X') _ Bx' (L _ Hp)) as (l1 & u1 & r1 & E1 & E2 & E3 & E4); cbn in E1, E2; rewrite El' in E1; rewrite Eu' in E2; injection E1 as <-; injection E2 as <-; injection E3 as <-; exact E4).
      assert (Is : l' <= s <= u') by (destruct (bounded_el (Iv X') _ Bx' (L _ Hq)) as (l1 & u1 & r1 & E1 & E2 & E3 & E4); cbn in E1, E2; rewrite El' in E1; rewrite Eu' in E2; injection E1 as <-; injection E2 as <-; injection E3 as <-; exact E4).
      rewrite (sun_fin u r C (dom1_between u l' u' r Dl Du Ir)) in Ep. rewrite (sun_fin u s C (dom1_between u l' u' s Dl Du Is)) in Eq. injection Ep as <-. injection Eq as <-.
      exists (fun1 u r), (fun1 u s). split; [reflexivity|]. split; [reflexivity|]. now apply H.
  Qed.

  Lemma in_bounds (x x' : arg N) l' u' r : alower x' = XFin l' -> aupper x' = XFin u' -> asubset x x' -> ael x (XFin r) -> l' <= r <= u'.
  Proof. intros El Eu S H. destruct (S _ H) as [A B]. rewrite El in A. rewrite Eu in B. apply le_fin in A, B. lra. Qed.
  Lemma conv_bin b (x' y' a' : arg N) : aproper x' -> aproper y' -> domain2 b y' -> bounded x' -> bounded y' -> lift2 dbg b x' y' = Ret a' -> aproper a' -> bounded a' ->
    forall eps, 0 < eps -> exists delta, 0 < delta /\ forall x y a, aproper x -> aproper y -> ale x x' -> ale y y' -> narrow delta x -> narrow delta y -> lift2 dbg b x y = Ret a -> narrow eps a.
  Proof.
    intros Px' Py' D Bx' By' E' Pa' Ba' eps He. pose proof Bx' as (l1 & u1 & El1 & Eu1). pose proof By' as (l2 & u2 & El2 & Eu2).
    assert (D2 : dom2 b l2 u2).
    { destruct b; try exact I. unfold domain2 in D. unfold dom2. destruct (Rlt_le_dec 0 l2) as [|Ql]; [now left|]. destruct (Rlt_le_dec u2 0) as [|Qu]; [now right|]. exfalso. apply D.
      exists (XFin 0). split; [|unfold is_zero; apply TrigProofs.real_eq; reflexivity]. unfold ael. split; [rewrite El2|rewrite Eu2]; now apply le_fin. }
    destruct (uc_bin b l1 u1 l2 u2 D2 eps He) as (d & Hd & H). exists d. split; [exact Hd|]. intros x y a Px Py Lx Ly Nx Ny E.
    pose proof (ale_sub x x' Lx) as Sx. pose proof (ale_sub y y' Ly) as Sy.
    assert (G : lift2 dbg b x y = (R <- ibin dbg b x y ;; Ret (Iv R)) -> lift2 dbg b x' y' = (R <- ibin dbg b x' y' ;; Ret (Iv R)) -> narrow eps a).
    { intros Q Q'. rewrite Q in E. rewrite Q' in E'. apply bind_inv in E as (Z & E & K). injection K as <-. apply bind_inv in E' as (Z' & E' & K). injection K as <-.
      destruct (ibin_iso HP dbg b x y x' y' Z' Px Py Sx Sy D E' Pa') as [(Z1 & E1 & PZ & _) Dn]. rewrite E in E1. injection E1 as <-.
      apply (hull_narrow _ Z eps (ibin_hull b x y Z Px Py Dn E PZ)). intros v v' (p & q & Hp & Hq & Ep) (p' & q' & Hp' & Hq' & Ep').
      destruct (narrow_el x d p p' Nx Hp Hp') as (r & r' & -> & -> & Rr), (narrow_el y d q q' Ny Hq Hq') as (s & s' & -> & -> & Rs).
      pose proof (in_bounds x x' l1 u1 r El1 Eu1 Sx Hp). pose proof (in_bounds x x' l1 u1 r' El1 Eu1 Sx Hp').
      pose proof (in_bounds y y' l2 u2 s El2 Eu2 Sy Hq) as I1. pose proof (in_bounds y y' l2 u2 s' El2 Eu2 Sy Hq') as I2.
      rewrite sbin_fin in Ep by (intros ->; cbn in D2; lra). rewrite sbin_fin in Ep' by (intros ->; cbn in D2; lra). injection Ep as <-. injection Ep' as <-.
      exists (fun2 b r s), (fun2 b r' s'). split; [reflexivity|]. split; [reflexivity|]. now apply H. }
    destruct x as [c|X], x' as [c'|X']; try (exfalso; exact Lx); destruct y as [e|Y], y' as [e'|Y']; try (exfalso; exact Ly); try (apply G; reflexivity).
    cbn in Lx, Ly. subst c' e'. rewrite E in E'. injection E' as <-. cbn in E. apply bind_inv in E as (r & _ & E). injection E as <-. apply narrow_scalar; [lra|exact Ba'].
  Qed.

  Lemma conv_eval V' (PV' : Forall aproper V') (e : expr N) : continuous e = true -> eclean M dbg V' e -> ebounded dbg V' e -> forall a', ieval M dbg V' e = Ret a' ->
    forall eps, 0 < eps -> exists delta, 0 < delta /\ forall V, Forall aproper V -> Forall2 ale V V' -> Forall (narrow delta) V -> forall a, ieval M dbg V e = Ret a -> narrow eps a.
  Proof.
    induction e as [i|v|u e IH|b e IHe f IHf|t e IHe f IHf]; intros C Cl B a' E' eps He; cbn [continuous] in C.
    - exists eps. split; [exact He|]. intros V PV S Nv a E. cbn in E. unfold ilookup in E. destruct (nth_error V i) as [x|] eqn:K; [|discriminate]. injection E as <-.
      rewrite Forall_forall in Nv. exact (Nv _ (nth_error_In _ _ K)).
    - exists 1. split; [lra|]. intros V PV S Nv a E. injection E as <-. apply narrow_scalar; [lra|]. exact (proj1 B _ eq_refl).
    - apply andb_prop in C as [Cu Ce]. destruct B as [Ba Be]. specialize (Ba a' E'). pose proof E' as F'. rewrite ieval_un in E'. apply bind_inv in E' as (x' & Ex' & E').
      destruct Cl as (_ & Cl & Dm). pose proof (eclean_number dbg V' e x' Cl Ex') as Px'.
      assert (Bx : bounded x') by (destruct e; exact (proj1 Be x' Ex')).
      destruct (conv_un u x' a' Cu Px' (Dm x' Ex') Bx E' Ba eps He) as (d1 & Hd1 & H1). destruct (IH Ce Cl Be x' Ex' d1 Hd1) as (d & Hd & H). exists d. split; [exact Hd|].
      intros V PV S Nv a E. rewrite ieval_un in E. apply bind_inv in E as (x & Ex & E).
      destruct (proj1 (eval_iso HP dbg V V' PV S) e Cl (all_monotone e) x' Ex') as (_ & x1 & Ex1 & Px & Lx). rewrite Ex in Ex1. injection Ex1 as <-.
      exact (H1 x a Px Lx (H V PV S Nv x Ex) E).
    - apply andb_prop in C as [Ce Cf]. pose proof (eclean_number dbg V' (EBin b e f) a' Cl E') as Pa. destruct B as [Ba [Be Bf]]. specialize (Ba a' E').
      rewrite ieval_bin in E'. apply bind_inv in E' as (x' & Ex' & E'). apply bind_inv in E' as (y' & Ey' & E').
      destruct Cl as (_ & Cle & Clf & Dm). pose proof (eclean_number dbg V' e x' Cle Ex') as Px'. pose proof (eclean_number dbg V' f y' Clf Ey') as Py'.
      assert (Bx : bounded x') by (destruct e; exact (proj1 Be x' Ex')). assert (By : bounded y') by (destruct f; exact (proj1 Bf y' Ey')).
      destruct (conv_bin b x' y' a' Px' Py' (Dm y' Ey') Bx By E' Pa Ba eps He) as (d1 & Hd1 & H1).
      destruct (IHe Ce Cle Be x' Ex' d1 Hd1) as (d & Hd & H). destruct (IHf Cf Clf Bf y' Ey' d1 Hd1) as (d' & Hd' & H').
      exists (Rmin d d'). split; [now apply Rmin_glb_lt|]. intros V PV S Nv a E. rewrite ieval_bin in E. apply bind_inv in E as (x & Ex & E). apply bind_inv in E as (y & Ey & E).
      assert (Nw : forall w, Rmin d d' <= w -> Forall (narrow w) V).
      { intros w Hw. eapply Forall_impl; [|exact Nv]. intros z (l & u & El & Eu & W). exists l, u. split; [exact El|]. split; [exact Eu|]. lra. }
      destruct (proj1 (eval_iso HP dbg V V' PV S) e Cle (all_monotone e) x' Ex') as (_ & x1 & Ex1 & Px & Lx). rewrite Ex in Ex1. injection Ex1 as <-.
      destruct (proj1 (eval_iso HP dbg V V' PV S) f Clf (all_monotone f) y' Ey') as (_ & y1 & Ey1 & Py & Ly). rewrite Ey in Ey1. injection Ey1 as <-.
      exact (H1 x y a Px Py Lx Ly (H V PV S (Nw d (Rmin_l d d')) x Ex) (H' V PV S (Nw d' (Rmin_r d d')) y Ey) E).
    - discriminate C.
  Qed.

  (** ** Boxes *)
  Lemma expression_converges Xs' (e : expr N) a' : Forall proper Xs' -> continuous e = true -> eclean M dbg (map Iv Xs') e -> ebounded dbg (map Iv Xs') e -> ieval M dbg (map Iv Xs') e = Ret a' ->
    forall eps, 0 < eps -> exists delta, 0 < delta /\ forall Xs, Forall proper Xs -> Forall2 subset Xs Xs' -> Forall (fun X => narrow delta (Iv X)) Xs ->
      exists a, ieval M dbg (map Iv Xs) e = Ret a /\ asubset a a' /\ narrow eps a.
  Proof.
    intros P' C Cl B E' eps He. destruct (conv_eval (map Iv Xs') (inputs_proper Xs' P') e C Cl B a' E' eps He) as (d & Hd & H). exists d. split; [exact Hd|]. intros Xs P S Nv.
    destruct (expression_iso HP dbg Xs Xs' e a' P S Cl (all_monotone e) E') as (_ & a & E & _ & Sa). exists a. split; [exact E|]. split; [exact Sa|].
    apply (H (map Iv Xs) (inputs_proper Xs P) (inputs_ale Xs Xs' S)); [|exact E]. clear - Nv. induction Nv; constructor; auto.
  Qed.
  Lemma box_point (Xs : list (ivl N)) : Forall proper Xs -> exists xs, Forall2 el Xs xs.
  Proof. intros P. exists (map lo Xs). induction P as [|X Xs PX _ IH]; constructor; [exact (el_lower HO X PX)|exact IH]. Qed.
  Lemma subdivision_converges Xs' (e : expr N) a' : Forall proper Xs' -> continuous e = true -> eclean M dbg (map Iv Xs') e -> ebounded dbg (map Iv Xs') e -> ieval M dbg (map Iv Xs') e = Ret a' ->
    forall eps, 0 < eps -> exists delta, 0 < delta /\ forall Bs : list (list (ivl N)),
      (forall B, In B Bs -> Forall proper B /\ Forall2 subset B Xs' /\ Forall (fun X => narrow delta (Iv X)) B) ->
      (forall xs, Forall2 el Xs' xs -> exists B, In B Bs /\ Forall2 el B xs) ->
      (forall xs, Forall2 el Xs' xs -> exists r B a, seval M dbg xs e = Ret (XFin r : N) /\ In B Bs /\ ieval M dbg (map Iv B) e = Ret a /\ ael a (XFin r))
      /\ forall B, In B Bs -> exists a, ieval M dbg (map Iv B) e = Ret a /\ bounded a
        /\ forall r, ael a (XFin r) -> exists xs r', Forall2 el Xs' xs /\ seval M dbg xs e = Ret (XFin r' : N) /\ Rabs (r - r') <= eps.
  Proof.
    intros P' C Cl B E' eps He. destruct (expression_converges Xs' e a' P' C Cl B E' eps He) as (d & Hd & H). exists d. split; [exact Hd|]. intros Bs HB Cov.
    assert (Ba' : bounded a') by (destruct e; exact (proj1 B a' E')).
    assert (Inc : forall B0 a xs, In B0 Bs -> ieval M dbg (map Iv B0) e = Ret a -> Forall2 el B0 xs -> exists v, seval M dbg xs e = Ret v /\ ael a v).
    { intros B0 a xs I0 E0 Hx. destruct (HB B0 I0) as (P0 & S0 & _). destruct (expression_iso HP dbg B0 Xs' e a' P0 S0 Cl (all_monotone e) E') as (C0 & a0 & E1 & Pa & _). rewrite E0 in E1. injection E1 as <-.
      destruct (expression_included HP dbg B0 xs e a Hx C0 (all_monotone e) E0) as (v & Ev & Hv). exists v. split; [exact Ev|]. destruct a as [c|Z]; [|exact Hv]. subst v. unfold aproper in Pa. cbn [alower aupper] in Pa. split; exact Pa. }
    split.
    - intros xs Hx. destruct (Cov xs Hx) as (B0 & I0 & Hx0). destruct (HB B0 I0) as (P0 & S0 & N0). destruct (H B0 P0 S0 N0) as (a & E & Sa & _).
      destruct (Inc B0 a xs I0 E Hx0) as (v & Ev & Hv). destruct (bounded_el a' v Ba' (Sa v Hv)) as (? & ? & r & _ & _ & -> & _). exists r, B0, a. auto.
    - intros B0 I0. destruct (HB B0 I0) as (P0 & S0 & N0). destruct (H B0 P0 S0 N0) as (a & E & Sa & Na). exists a. split; [exact E|].
      split; [destruct Na as (l & u & El & Eu & _); exists l, u; auto|]. intros r Hr.
      destruct (box_point B0 P0) as (xs & Hx). destruct (Inc B0 a xs I0 E Hx) as (v & Ev & Hv). destruct (narrow_el a eps (XFin r) v Na Hr Hv) as (r1 & r' & K & -> & L). injection K as <-.
      exists xs, r'. split; [|auto]. clear - Hx S0. revert xs Hx. induction S0; intros xs Hx; inversion Hx; subst; constructor; auto.
  Qed.
End Conv.
