(** The run of a program with intervals contains its run with numbers. *)
From Coq Require Import Bool List Arith Lia.
From Verif Require Import Outcome SetModel Spec SetProofs SetProofs2 Num NumLaws IntervalModel IvlSpec IvlProofs ArithProofs ArithProofs2 ArithProofs3 ArithProofs4
  ConstrainModel CondSpec ConstrainProofs ConstrainProofs2 ConstrainProofs4 ConstrainProofs5 ConstrainWrap
  MathModel FloatMathProofs MathSpec MathProofs MonoProofs MathWrap ValueTypes LangModel LangSpec.
Import ListNotations.

Lemma prog_laws N M : prog_type N M -> num_laws N.
Proof. intros [N' H|N' m H]; [exact (value_type_laws _ H)|exact (fp_laws _ _ H)]. Qed.

Lemma prog_math N M : prog_type N M -> match M with Some m => fp_math N m | None => True end.
Proof. intros [N' H|N' m H]; [exact I|exact H]. Qed.

Scheme expr_mut := Induction for expr Sort Prop with test_mut := Induction for test Sort Prop.
Combined Scheme expr_test_ind from expr_mut, test_mut.

(** [v] is the number of the run with numbers where the other run has [a]. *)
Definition stands {N : num} (a : arg N) (v : N) : Prop := match a with Sc c => v = c | Iv X => el X v end.
Definition is_iv {N : num} (a : arg N) : bool := match a with Sc _ => false | Iv _ => true end.

(** Equations of the mutual functions. *)
Section Equations.
  Context {N : num} (M : option (math N)) (dbg : bool) (V : list (arg N)) (VS : list N).
  Implicit Types (e f : expr N) (t u : test N).
  Lemma ieval_un o e : ieval M dbg V (EUn o e) = (x <- ieval M dbg V e ;; lift1 M dbg o x). Proof. reflexivity. Qed.
  Lemma ieval_bin b e f : ieval M dbg V (EBin b e f) = (x <- ieval M dbg V e ;; y <- ieval M dbg V f ;; lift2 dbg b x y). Proof. reflexivity. Qed.
  Lemma ieval_if t e f : ieval M dbg V (EIf t e f) = (c <- itest M dbg V t ;; x <- ieval M dbg V e ;; y <- ieval M dbg V f ;; lift_if c x y). Proof. reflexivity. Qed.
  Lemma itest_rel r e f : itest M dbg V (QRel r e f) = (x <- ieval M dbg V e ;; y <- ieval M dbg V f ;; c_rel dbg r (operand_for e x) (operand_for f y)). Proof. reflexivity. Qed.
  Lemma itest_not t : itest M dbg V (QNot t) = (c <- itest M dbg V t ;; c_not dbg c). Proof. reflexivity. Qed.
  Lemma itest_and t u : itest M dbg V (QAnd t u) = (c <- itest M dbg V t ;; d <- itest M dbg V u ;; Ret (c_and c d)). Proof. reflexivity. Qed.
  Lemma itest_or t u : itest M dbg V (QOr t u) = (c <- itest M dbg V t ;; d <- itest M dbg V u ;; Ret (c_or c d)). Proof. reflexivity. Qed.
  Lemma seval_un o e : seval M dbg VS (EUn o e) = (x <- seval M dbg VS e ;; sun M dbg o x). Proof. reflexivity. Qed.
  Lemma seval_bin b e f : seval M dbg VS (EBin b e f) = (x <- seval M dbg VS e ;; y <- seval M dbg VS f ;; sbin b x y). Proof. reflexivity. Qed.
  Lemma seval_if t e f : seval M dbg VS (EIf t e f) = (c <- stest M dbg VS t ;; x <- seval M dbg VS e ;; y <- seval M dbg VS f ;; Ret (if_else_b c x y)). Proof. reflexivity. Qed.
  Lemma stest_rel r e f : stest M dbg VS (QRel r e f) = (x <- seval M dbg VS e ;; y <- seval M dbg VS f ;; Ret (rel_holds r x y)). Proof. reflexivity. Qed.
  Lemma stest_not t : stest M dbg VS (QNot t) = (c <- stest M dbg VS t ;; Ret (negb c)). Proof. reflexivity. Qed.
  Lemma stest_and t u : stest M dbg VS (QAnd t u) = (c <- stest M dbg VS t ;; d <- stest M dbg VS u ;; Ret (c && d)). Proof. reflexivity. Qed.
  Lemma stest_or t u : stest M dbg VS (QOr t u) = (c <- stest M dbg VS t ;; d <- stest M dbg VS u ;; Ret (c || d)). Proof. reflexivity. Qed.
  Lemma varies_un ks o e : evaries ks (EUn o e) = evaries ks e. Proof. reflexivity. Qed.
  Lemma varies_bin ks b e f : evaries ks (EBin b e f) = evaries ks e || evaries ks f. Proof. reflexivity. Qed.
  Lemma varies_if ks t e f : evaries ks (EIf t e f) = tvaries ks t || evaries ks e || evaries ks f. Proof. reflexivity. Qed.
  Lemma varies_rel ks r e f : tvaries ks (QRel r e f) = evaries ks e || evaries ks f. Proof. reflexivity. Qed.
  Lemma varies_not ks t : tvaries ks (QNot t) = tvaries ks t. Proof. reflexivity. Qed.
  Lemma varies_and ks t u : tvaries ks (QAnd t u) = tvaries ks t || tvaries ks u. Proof. reflexivity. Qed.
  Lemma varies_or ks t u : tvaries ks (QOr t u) = tvaries ks t || tvaries ks u. Proof. reflexivity. Qed.
End Equations.
Ltac step_in E := rewrite ?ieval_un, ?ieval_bin, ?ieval_if, ?itest_rel, ?itest_not, ?itest_and, ?itest_or in E.
Ltac step := rewrite ?seval_un, ?seval_bin, ?seval_if, ?stest_rel, ?stest_not, ?stest_and, ?stest_or, ?varies_un, ?varies_bin, ?varies_if, ?varies_rel, ?varies_not, ?varies_and, ?varies_or.

Section Lang.
  Context {N : num} {M : option (math N)} (HP : prog_type N M) (dbg : bool).
  Let HN := prog_laws N M HP.
  Let HO := nl_ord N HN.

  Lemma stands_ael (a : arg N) v : aproper a -> stands a v -> ael a v.
  Proof. destruct a as [c|X]; cbn; [intros H ->; split; exact H|auto]. Qed.

  (** ** Functions *)
  Lemma hull_of_in (f : N -> outcome N) F X Z v : hull_of f F X -> (forall x, el X x -> exists z, f x = Ret z) -> F = Ret Z -> el X v -> exists w, f v = Ret w /\ el Z w.
  Proof.
    intros (Z' & E & H & _) D E' Hv. rewrite E' in E. injection E as <-. destruct (D v Hv) as [w Hw]. exists w. split; [exact Hw|]. apply H. exists v. auto.
  Qed.
  Lemma op1_in (f : N -> outcome N) F X Z v : op1_ok f F X -> F = Ret Z -> el X v -> exists w, f v = Ret w /\ el Z w.
  Proof. intros [_ H] E Hv. destruct (H Z E) as (D & K & _). destruct (D v Hv) as [w Hw]. exists w. split; [exact Hw|]. apply K. exists v. auto. Qed.
  Lemma within_el (X : ivl N) v : within_one (lo X) -> within_one (hi X) -> el X v -> within_one v.
  Proof. unfold within_one. intros [A _] [_ B] [C D]. split; [clear - HO A C; ord HO|clear - HO B D; ord HO]. Qed.
  Lemma debug_ret b : b = true -> expects_debug dbg b = Ret tt. Proof. intros ->. now destruct dbg. Qed.
  Lemma nonneg_el (X : ivl N) v : nonneg (lo X) -> el X v -> nonneg v.
  Proof. unfold nonneg. intros A [C _]. clear - HO A C. ord HO. Qed.

  Ltac pm := pose proof (prog_math N M HP) as HM; match goal with Mo : monotone _ _, E : _ = Ret _ |- _ => revert HM Mo E end; generalize M; intros [m|] HM Mo E; cbn [with_math] in *; [|discriminate E]; specialize (Mo m eq_refl); cbn in Mo; match goal with Dm : domain1 _ _ |- _ => cbn in Dm end.
  Lemma iun_in u X Z v : proper X -> domain1 u (Iv X) -> monotone M u -> iun M dbg u X = Ret Z -> el X v -> exists w, sun M dbg u v = Ret w /\ el Z w.
  Proof.
    intros HX Dm Mo E Hv. destruct u; cbn [iun sun] in *.
    - unfold iplus in E. apply bind_inv in E as (? & _ & E). injection E as <-. eauto.
    - destruct (neg_hull HN dbg X HX) as (_ & K & _). apply (op1_in _ _ X Z v (conj (fun _ => ex_intro _ Z E) K) E Hv).
    - exact (op1_in _ _ X Z v (square_ok HN dbg X HX) E Hv).
    - exact (op1_in _ _ X Z v (icube_ok HN dbg X HX) E Hv).
    - exact (op1_in _ _ X Z v (iabs_ok HN dbg X HX) E Hv).
    - pm. apply (hull_of_in _ _ X Z v (fp_sqrt HM dbg X HX Dm)); auto. intros x Hx. unfold ssqrt. rewrite debug_ret by exact (nonneg_el X x Dm Hx). cbn. eauto.
    - pm. apply (hull_of_in _ _ X Z v (cbrt_hull HO m dbg X HX Mo)); auto. intros x Hx. unfold scbrt. eauto.
    - pm. apply (hull_of_in _ _ X Z v (exp_hull HO m dbg X HX Mo)); auto. intros x Hx. unfold sexp. eauto.
    - pm. apply (hull_of_in _ _ X Z v (log_hull HO m dbg X HX Dm Mo)); auto. intros x Hx. unfold slog. rewrite debug_ret by exact (nonneg_el X x Dm Hx). cbn. eauto.
    - pm. apply (hull_of_in _ _ X Z v (atan_hull HO m dbg X HX Mo)); auto. intros x Hx. unfold satan. eauto.
    - pm. destruct Dm as [D1 D2]. apply (hull_of_in _ _ X Z v (asin_hull HO m dbg X HX D1 D2 Mo)); auto. intros x Hx. destruct (within_el X x D1 D2 Hx) as [A B].
      unfold sasin. rewrite debug_ret by now rewrite A, B. cbn. eauto.
    - pm. destruct Dm as [D1 D2]. apply (hull_of_in _ _ X Z v (acos_hull HO m dbg X HX D1 D2 Mo)); auto. intros x Hx. destruct (within_el X x D1 D2 Hx) as [A B].
      unfold sacos. rewrite debug_ret by now rewrite A, B. cbn. eauto.
    - pm. apply (hull_of_in _ _ X Z v (fp_floor HM dbg X HX)); auto. intros x Hx. unfold sfloor. eauto.
    - pm. apply (hull_of_in _ _ X Z v (fp_ceil HM dbg X HX)); auto. intros x Hx. unfold sceil. eauto.
    - pm. apply (hull_of_in _ _ X Z v (fp_round HM dbg X HX)); auto. intros x Hx. unfold sround. eauto.
  Qed.
  Lemma lift1_in u (x : arg N) a v : aproper x -> domain1 u x -> monotone M u -> lift1 M dbg u x = Ret a -> stands x v -> exists w, sun M dbg u v = Ret w /\ stands a w.
  Proof.
    intros Hx Dm Mo E Hv. destruct x as [c|X]; cbn [lift1] in E; apply bind_inv in E as (r & E & K); injection K as <-; cbn in Hv.
    - subst v. cbn. eauto.
    - exact (iun_in u X r v Hx Dm Mo E Hv).
  Qed.

  Lemma op_in (f : N -> N -> outcome N) F (x y : arg N) Z v w : op_ok f F x y -> F = Ret Z -> proper Z -> ael x v -> ael y w -> exists z, f v w = Ret z /\ el Z z.
  Proof.
    intros [_ H] E HZ Hv Hw. destruct (H Z E) as (D & A & B). destruct (D v w Hv Hw) as [z Hz]. exists z. split; [exact Hz|].
    apply B; [|exists v, w; auto]. intros K. destruct (A K) as [L _]. apply (nan_iff HN) in L. apply L. exact (el_ok HO Z _ (el_lower HO Z HZ)).
  Qed.
  Lemma ibin_in b (x y : arg N) Z v w : aproper x -> aproper y -> domain2 b y -> ibin dbg b x y = Ret Z -> proper Z -> ael x v -> ael y w ->
    exists z, sbin b v w = Ret z /\ el Z z.
  Proof.
    intros Hx Hy Dm E HZ Hv Hw. destruct b; cbn [ibin sbin] in *.
    - exact (op_in _ _ x y Z v w (add_op_ok HN dbg x y Hx Hy) E HZ Hv Hw).
    - exact (op_in _ _ x y Z v w (sub_op_ok HN dbg x y Hx Hy) E HZ Hv Hw).
    - exact (op_in _ _ x y Z v w (mul_op_ok HN dbg x y Hx Hy) E HZ Hv Hw).
    - refine (op_in _ _ x y Z v w (div_zero_free HN dbg x y Hx Hy _) E HZ Hv Hw). now apply (zero_free_iff HN y Hy).
    - destruct (imin_hull HO dbg x y Hx Hy) as (Z' & E' & K & _). rewrite E in E'. injection E' as <-. eexists. split; [reflexivity|]. apply K. exists v, w. auto.
    - destruct (imax_hull HO dbg x y Hx Hy) as (Z' & E' & K & _). rewrite E in E'. injection E' as <-. eexists. split; [reflexivity|]. apply K. exists v, w. auto.
  Qed.
  Lemma lift2_in b (x y : arg N) a v w : aproper x -> aproper y -> domain2 b y -> lift2 dbg b x y = Ret a -> aproper a -> stands x v -> stands y w ->
    exists z, sbin b v w = Ret z /\ stands a z.
  Proof.
    intros Hx Hy Dm E Ha Hv Hw.
    assert (C : (exists c d, x = Sc c /\ y = Sc d) \/ (exists Z, ibin dbg b x y = Ret Z /\ a = Iv Z)).
    { destruct x as [c|X], y as [d|Y]; [left; eauto| | |]; right; cbn [lift2] in E; apply bind_inv in E as (Z & E & K); injection K as <-; eauto. }
    destruct C as [(c & d & -> & ->)|(Z & E' & ->)].
    - cbn in Hv, Hw, E. subst v w. apply bind_inv in E as (r & E & K). injection K as <-. cbn. eauto.
    - apply (ibin_in b x y Z v w); auto using stands_ael.
  Qed.

  Lemma as_ivl_proper (x : arg N) : aproper x -> proper (as_ivl x). Proof. now destruct x. Qed.
  Lemma as_ivl_in (x : arg N) v : aproper x -> stands x v -> el (as_ivl x) v.
  Proof. destruct x as [c|X]; cbn; [intros H ->; split; exact H|auto]. Qed.
  Lemma iif_in (c : bset) (b : bool) (X Y Z : ivl N) v w : proper X -> proper Y -> member c b -> iif_else c X Y = Ret Z -> el X v -> el Y w -> el Z (if b then v else w).
  Proof.
    intros HX HY Hb E Hv Hw. destruct (if_else_hull HN c X Y HX HY) as (Z' & E' & K & _). rewrite E in E'. injection E' as <-.
    apply K; [eauto|]. destruct b; [left|right]; auto.
  Qed.
  Lemma lift_if_in (c : cond N) (b : bool) (x y : arg N) a v w : aproper x -> aproper y -> member (cset c) b -> lift_if c x y = Ret a -> stands x v -> stands y w ->
    stands a (if_else_b b v w).
  Proof.
    intros Hx Hy Hb E Hv Hw.
    assert (G : forall R, iif_else (cset c) (as_ivl x) (as_ivl y) = Ret R -> stands (Iv R) (if_else_b b v w)).
    { intros R H. apply (iif_in (cset c) b (as_ivl x) (as_ivl y)); auto using as_ivl_proper, as_ivl_in. }
    assert (S : forall d, c = CBool d -> stands (if_else_b d x y) (if_else_b b v w)).
    { intros d ->. cbn in Hb. apply bset_of_member in Hb. subst d. destruct b; assumption. }
    destruct c, x as [p|X], y as [q|Y]; cbn [lift_if] in E;
      try (injection E as <-; apply S; reflexivity); apply bind_inv in E as (R & E & K); injection K as <-; exact (G R E).
  Qed.

  (** ** Tests as formulas *)
  Definition term_for (o : operand N) : term N := match o with OpId i X => TVar i X | OpVal a => TVal a end.
  Definition rel_form (r : rel) (o o' : operand N) : cform N :=
    match o, o' with
    | OpVal (Sc v), OpVal (Sc w) => GBool (rel_holds r v w)
    | _, _ => GRel r (term_for o) (term_for o')
    end.
  Fixpoint form (V : list (arg N)) (t : test N) : cform N :=
    match t with
    | QRel r e f =>
        match ieval M dbg V e, ieval M dbg V f with
        | Ret x, Ret y => rel_form r (operand_for e x) (operand_for f y)
        | _, _ => GBool true
        end
    | QNot t => GNot (form V t)
    | QAnd t u => GAnd (form V t) (form V u)
    | QOr t u => GOr (form V t) (form V u)
    end.
  Lemma c_rel_build r o o' : c_rel dbg r o o' = build dbg (rel_form r o o').
  Proof.
    destruct o as [i X|[v|X]], o' as [j Y|[w|Y]]; destruct r; reflexivity.
  Qed.
  Lemma itest_build V t c : itest M dbg V t = Ret c -> build dbg (form V t) = Ret c.
  Proof.
    revert c. induction t as [r e f|t IH|t IHt u IHu|t IHt u IHu]; intros c E; step_in E; cbn [form].
    - apply bind_inv in E as (x & Ex & E). apply bind_inv in E as (y & Ey & E). rewrite Ex, Ey, <- c_rel_build. exact E.
    - apply bind_inv in E as (d & Ed & E). cbn [build]. rewrite (IH d Ed). exact E.
    - apply bind_inv in E as (d & Ed & E). apply bind_inv in E as (d' & Ed' & E). cbn [build]. rewrite (IHt d Ed), (IHu d' Ed'). exact E.
    - apply bind_inv in E as (d & Ed & E). apply bind_inv in E as (d' & Ed' & E). cbn [build]. rewrite (IHt d Ed), (IHu d' Ed'). exact E.
  Qed.
  Definition agrees (rho : nat -> N) (VS : list N) : Prop := forall i v, nth_error VS i = Some v -> rho i = v.

  Lemma eclean_number V e x : eclean M dbg V e -> ieval M dbg V e = Ret x -> aproper x.
  Proof. intros H. destruct e; cbn [eclean] in H; destruct H as [H _]; exact (H x). Qed.

  Definition term_ok (t : term N) : Prop := match t with TVar _ X => proper X | TVal a => aproper a end.
  Definition term_in (rho : nat -> N) (t : term N) : Prop := match t with TVar i X => el X (rho i) | TVal _ => True end.
  Lemma term_for_ok e x : aproper x -> term_ok (term_for (operand_for e x)).
  Proof. intros H. destruct e; try exact H. destruct x; exact H. Qed.
  Lemma rel_form_legal r e f x y : aproper x -> aproper y -> legal (rel_form r (operand_for e x) (operand_for f y)).
  Proof.
    intros Hx Hy. pose proof (term_for_ok e x Hx) as A. pose proof (term_for_ok f y Hy) as B.
    unfold rel_form. destruct (operand_for e x) as [i X|[v|X]], (operand_for f y) as [j Y|[w|Y]]; split; cbn; auto.
  Qed.

  (** ** Evaluation *)
  Lemma lookup_in (V : list (arg N)) VS i x : Forall2 stands V VS -> ilookup V i = Ret x -> exists v, slookup VS i = Ret v /\ stands x v.
  Proof.
    intros H. revert i. induction H as [|a v V VS H _ IH]; intros [|i] E; unfold ilookup in E; cbn in E; try discriminate.
    - injection E as <-. exists v. split; [reflexivity|exact H].
    - exact (IH i E).
  Qed.
  Lemma term_value V VS rho e x v : Forall2 stands V VS -> agrees rho VS -> ieval M dbg V e = Ret x -> seval M dbg VS e = Ret v -> aproper x -> stands x v ->
    tval rho (term_for (operand_for e x)) v /\ term_in rho (term_for (operand_for e x)).
  Proof.
    intros HV A Ex Ev Hx Hv. assert (G : tval rho (TVal x) v /\ term_in rho (TVal x)) by (split; [exact (stands_ael x v Hx Hv)|exact I]).
    destruct e; try exact G. destruct x as [c|X]; [exact G|]. cbn in Ev |- *. unfold slookup in Ev. destruct (nth_error VS i) as [w|] eqn:E; [|discriminate].
    injection Ev as <-. rewrite (A i w E). split; [reflexivity|exact Hv].
  Qed.

  Definition test_ok (V : list (arg N)) (VS : list N) (t : test N) : Prop :=
    legal (form V t) /\ exists b, stest M dbg VS t = Ret b /\ forall rho, agrees rho VS -> inside rho (form V t) /\ truth rho (form V t) b.
  Lemma some_rho VS : exists rho, agrees rho VS.
  Proof. exists (fun i => nth i VS n_zero). intros i v H. exact (nth_error_nth VS i n_zero H). Qed.
  Lemma test_member V VS t c b : test_ok V VS t -> itest M dbg V t = Ret c -> stest M dbg VS t = Ret b -> member (cset c) b.
  Proof.
    intros [L (b' & Eb & K)] E Eb'. rewrite Eb in Eb'. injection Eb' as <-. destruct (some_rho VS) as [rho A]. destruct (K rho A) as [I T].
    destruct (condition_value HO dbg (form V t) L) as (c' & E' & G & _). rewrite (itest_build V t c E) in E'. injection E' as <-. exact (G rho b' I T).
  Qed.

  Lemma eval_test_ok V VS : Forall2 stands V VS ->
    (forall e : expr N, eclean M dbg V e -> efuns (monotone M) e -> forall x, ieval M dbg V e = Ret x -> exists v, seval M dbg VS e = Ret v /\ stands x v)
    /\ (forall t : test N, tclean M dbg V t -> tfuns (monotone M) t -> forall c, itest M dbg V t = Ret c -> test_ok V VS t).
  Proof.
    intros HV. apply expr_test_ind.
    - intros i _ _ x E. exact (lookup_in V VS i x HV E).
    - intros c _ _ x E. cbn in E |- *. injection E as <-. exists c. split; reflexivity.
    - intros u e IH Cl Fu a E. step_in E; step. destruct Cl as (_ & Cl & Dm), Fu as [Fu Fe]. apply bind_inv in E as (x & Ex & E).
      destruct (IH Cl Fe x Ex) as (v & Ev & Hv). rewrite Ev. cbn [bind]. exact (lift1_in u x a v (eclean_number V e x Cl Ex) (Dm x Ex) Fu E Hv).
    - intros b e IHe f IHf Cl Fu a E. pose proof (eclean_number V (EBin b e f) a Cl E) as Ha. step_in E; step. destruct Cl as (_ & Ce & Cf & Dm), Fu as [Fe Ff].
      apply bind_inv in E as (x & Ex & E). apply bind_inv in E as (y & Ey & E). destruct (IHe Ce Fe x Ex) as (v & Ev & Hv), (IHf Cf Ff y Ey) as (w & Ew & Hw).
      rewrite Ev, Ew. cbn [bind]. exact (lift2_in b x y a v w (eclean_number V e x Ce Ex) (eclean_number V f y Cf Ey) (Dm y Ey) E Ha Hv Hw).
    - intros t IHt e IHe f IHf Cl Fu a E. step_in E; step. destruct Cl as (_ & Ct & Ce & Cf), Fu as (Ft & Fe & Ff).
      apply bind_inv in E as (c & Ec & E). apply bind_inv in E as (x & Ex & E). apply bind_inv in E as (y & Ey & E).
      destruct (IHe Ce Fe x Ex) as (v & Ev & Hv), (IHf Cf Ff y Ey) as (w & Ew & Hw). pose proof (IHt Ct Ft c Ec) as T. pose proof T as (_ & b & Eb & _).
      rewrite Eb, Ev, Ew. cbn [bind]. eexists. split; [reflexivity|].
      exact (lift_if_in c b x y a v w (eclean_number V e x Ce Ex) (eclean_number V f y Cf Ey) (test_member V VS t c b T Ec Eb) E Hv Hw).
    - intros r e IHe f IHf [Ce Cf] [Fe Ff] c E. step_in E. apply bind_inv in E as (x & Ex & E). apply bind_inv in E as (y & Ey & E).
      destruct (IHe Ce Fe x Ex) as (v & Ev & Hv), (IHf Cf Ff y Ey) as (w & Ew & Hw).
      pose proof (eclean_number V e x Ce Ex) as Hx. pose proof (eclean_number V f y Cf Ey) as Hy. unfold test_ok. cbn [form]; step. rewrite Ex, Ey, Ev, Ew. cbn [bind].
      split; [exact (rel_form_legal r e f x y Hx Hy)|]. eexists. split; [reflexivity|]. intros rho A.
      destruct (term_value V VS rho e x v HV A Ex Ev Hx Hv) as [T1 I1], (term_value V VS rho f y w HV A Ey Ew Hy Hw) as [T2 I2].
      assert (G : inside rho (GRel r (term_for (operand_for e x)) (term_for (operand_for f y))) /\ truth rho (GRel r (term_for (operand_for e x)) (term_for (operand_for f y))) (rel_holds r v w))
        by (split; [split; assumption|constructor; assumption]).
      unfold rel_form. destruct (operand_for e x) as [i X|[p|X]] eqn:Oe; try exact G. destruct (operand_for f y) as [j Y|[q|Y]] eqn:Of; try exact G.
      split; [exact I|]. assert (x = Sc p) as -> by (destruct e, x; inversion Oe; reflexivity). assert (y = Sc q) as -> by (destruct f, y; inversion Of; reflexivity).
      cbn in Hv, Hw. subst v w. constructor.
    - intros t IH Cl Fu c E. step_in E. apply bind_inv in E as (d & Ed & E). destruct (IH Cl Fu d Ed) as (L & b & Eb & K). split; [exact L|].
      step. rewrite Eb. cbn [bind]. eexists. split; [reflexivity|]. intros rho A. destruct (K rho A). split; [assumption|]. now constructor.
    - intros t IHt u IHu [Ct Cu] [Ft Fu] c E. step_in E. apply bind_inv in E as (d & Ed & E). apply bind_inv in E as (d' & Ed' & E).
      destruct (IHt Ct Ft d Ed) as (L & b & Eb & K), (IHu Cu Fu d' Ed') as (L' & b' & Eb' & K'). split; [now apply legal_and|].
      step. rewrite Eb, Eb'. cbn [bind]. eexists. split; [reflexivity|]. intros rho A. destruct (K rho A), (K' rho A). split; [split; assumption|now constructor].
    - intros t IHt u IHu [Ct Cu] [Ft Fu] c E. step_in E. apply bind_inv in E as (d & Ed & E). apply bind_inv in E as (d' & Ed' & E).
      destruct (IHt Ct Ft d Ed) as (L & b & Eb & K), (IHu Cu Fu d' Ed') as (L' & b' & Eb' & K'). split; [now apply legal_or|].
      step. rewrite Eb, Eb'. cbn [bind]. eexists. split; [reflexivity|]. intros rho A. destruct (K rho A), (K' rho A). split; [split; assumption|now constructor].
  Qed.

  (** ** Kinds of values *)
  Definition is_plain_bool (c : cond N) : bool := match c with CBool _ => true | _ => false end.
  Lemma kinds V :
    (forall (e : expr N) x, ieval M dbg V e = Ret x -> is_iv x = evaries (map is_iv V) e)
    /\ (forall (t : test N) c, itest M dbg V t = Ret c -> is_plain_bool c = negb (tvaries (map is_iv V) t)).
  Proof.
    apply expr_test_ind.
    - intros i x E. cbn in *. unfold ilookup in E. destruct (nth_error V i) as [a|] eqn:Ea; [|discriminate]. injection E as <-.
      pose proof (map_nth_error is_iv i V Ea) as K. symmetry. exact (nth_error_nth _ i false K).
    - intros v x E. cbn in *. now injection E as <-.
    - intros u e IH a E. step_in E; step. apply bind_inv in E as (x & Ex & E). rewrite <- (IH x Ex).
      destruct x; cbn in E; apply bind_inv in E as (r & _ & E); injection E as <-; reflexivity.
    - intros b e IHe f IHf a E. step_in E; step. apply bind_inv in E as (x & Ex & E). apply bind_inv in E as (y & Ey & E). rewrite <- (IHe x Ex), <- (IHf y Ey).
      destruct x, y; cbn [lift2] in E; apply bind_inv in E as (r & _ & E); injection E as <-; reflexivity.
    - intros t IHt e IHe f IHf a E. step_in E; step. apply bind_inv in E as (c & Ec & E). apply bind_inv in E as (x & Ex & E). apply bind_inv in E as (y & Ey & E).
      rewrite <- (IHe x Ex), <- (IHf y Ey). pose proof (IHt c Ec) as K. destruct (tvaries (map is_iv V) t); destruct c; try discriminate K;
      destruct x, y; cbn [lift_if] in E; (injection E as <- || (apply bind_inv in E as (r0 & _ & E); injection E as <-)); try reflexivity; now destruct b.
    - intros r e IHe f IHf c E. step_in E; step. apply bind_inv in E as (x & Ex & E). apply bind_inv in E as (y & Ey & E). rewrite <- (IHe x Ex), <- (IHf y Ey).
      assert (Oe : forall (e : expr N) x, (exists i X, x = Iv X /\ operand_for e x = OpId i X) \/ operand_for e x = OpVal x).
      { intros e0 [v|X]; [right; now destruct e0|]. destruct e0; auto. left. exists i, X. auto. }
      destruct (Oe e x) as [(i & X & -> & Ei)|Ei], (Oe f y) as [(j & Y & -> & Ej)|Ej]; rewrite Ei, Ej in E.
      all: try (destruct x as [p|p]); try (destruct y as [q|q]); cbn [c_rel] in E;
        try (injection E as <-; reflexivity); destruct r; apply bind_inv in E as (s0 & _ & E); injection E as <-; reflexivity.
    - intros t IH c E. step_in E; step. apply bind_inv in E as (d & Ed & E). rewrite <- (IH d Ed).
      destruct d; cbn [c_not] in E; try (injection E as <-; reflexivity); apply bind_inv in E as (s0 & _ & E); try (injection E as <-; reflexivity);
      destruct (is_cond d1 && is_cond d2); try (injection E as <-; reflexivity); apply bind_inv in E as (s1 & _ & E); apply bind_inv in E as (s2 & _ & E); injection E as <-; reflexivity.
    - intros t IHt u IHu c E. step_in E; step. apply bind_inv in E as (d & Ed & E). apply bind_inv in E as (d' & Ed' & E). injection E as <-.
      rewrite negb_orb, <- (IHt d Ed), <- (IHu d' Ed'). destruct d, d'; reflexivity.
    - intros t IHt u IHu c E. step_in E; step. apply bind_inv in E as (d & Ed & E). apply bind_inv in E as (d' & Ed' & E). injection E as <-.
      rewrite negb_orb, <- (IHt d Ed), <- (IHu d' Ed'). destruct d, d'; reflexivity.
  Qed.

  (** ** Shapes of the formulas *)
  Lemma rel_form_cmp r e f x y : is_iv x || is_iv y = true -> exists s t, rel_form r (operand_for e x) (operand_for f y) = GRel r s t.
  Proof.
    intros H. unfold rel_form. destruct x as [v|X], y as [w|Y]; try discriminate H; destruct e, f; cbn; eauto.
  Qed.
  Lemma form_cmp V t c : itest M dbg V t = Ret c -> all_vary (map is_iv V) t = true -> comparisons (form V t) = true /\ forall p, conjunctive (nnf p (form V t)) = conj_test p t.
  Proof.
    revert c. induction t as [r e f|t IH|t IHt u IHu|t IHt u IHu]; intros c E H; step_in E; cbn [form all_vary] in *.
    - apply bind_inv in E as (x & Ex & E). apply bind_inv in E as (y & Ey & E). rewrite Ex, Ey. destruct (kinds V) as [K _]. rewrite <- (K e x Ex), <- (K f y Ey) in H.
      destruct (rel_form_cmp r e f x y H) as (s & t & ->). split; [reflexivity|]. intros []; reflexivity.
    - apply bind_inv in E as (d & Ed & E). destruct (IH d Ed H) as [A B]. split; [exact A|]. intros p. cbn [nnf conj_test]. rewrite (comparisons_not_plain _ A). apply B.
    - apply bind_inv in E as (d & Ed & E). apply bind_inv in E as (d' & Ed' & E). apply andb_true_iff in H as [H H']. destruct (IHt d Ed H) as [A B], (IHu d' Ed' H') as [A' B'].
      split; [cbn; now rewrite A, A'|]. intros []; cbn [nnf conjunctive conj_test].
      + now rewrite B, B'.
      + cbn. assert (G : forall p, plain (nnf p (form V t)) = false). { intros p. clear - A. revert p A. induction (form V t); cbn; intros p A; try discriminate.
          - now destruct p.
          - rewrite (comparisons_not_plain _ A). now apply IHc.
          - apply andb_true_iff in A as [A _]. destruct p; cbn; now rewrite IHc1.
          - apply andb_true_iff in A as [A _]. destruct p; cbn; now rewrite IHc1. }
        now rewrite G.
    - apply bind_inv in E as (d & Ed & E). apply bind_inv in E as (d' & Ed' & E). apply andb_true_iff in H as [H H']. destruct (IHt d Ed H) as [A B], (IHu d' Ed' H') as [A' B'].
      split; [cbn; now rewrite A, A'|]. intros []; cbn [nnf conjunctive conj_test].
      + cbn. assert (G : forall p, plain (nnf p (form V t)) = false). { intros p. clear - A. revert p A. induction (form V t); cbn; intros p A; try discriminate.
          - now destruct p.
          - rewrite (comparisons_not_plain _ A). now apply IHc.
          - apply andb_true_iff in A as [A _]. destruct p; cbn; now rewrite IHc1.
          - apply andb_true_iff in A as [A _]. destruct p; cbn; now rewrite IHc1. }
        now rewrite G.
      + now rewrite B, B'.
  Qed.
  Lemma cmp_unmixed (f : cform N) : comparisons f = true -> unmixed f = true.
  Proof. induction f; cbn; intros H; auto; [rewrite H; apply orb_true_r| |]; apply andb_true_iff in H as [A B]; now rewrite IHf1, IHf2. Qed.
  Lemma var_bound V e i x : is_var i e = true -> ieval M dbg V e = Ret x -> nth_error V i = Some x /\ e = EVar i.
  Proof.
    destruct e; try discriminate. cbn. intros H E. apply Nat.eqb_eq in H. subst. unfold ilookup in E. destruct (nth_error V i) as [a|]; [|discriminate]. injection E as ->. auto.
  Qed.
  Lemma form_names V t c i : itest M dbg V t = Ret c -> names i t = true ->
    i < length V /\ forall X, nth_error V i = Some (Iv X) -> mentions i (form V t) = true.
  Proof.
    revert c. induction t as [r e f|t IH|t IHt u IHu|t IHt u IHu]; intros c E H; step_in E; cbn [form names] in *.
    - apply bind_inv in E as (x & Ex & E). apply bind_inv in E as (y & Ey & E). rewrite Ex, Ey. apply orb_true_iff in H as [H|H].
      + destruct (var_bound V e i x H Ex) as [K ->]. split; [apply nth_error_Some; rewrite K; discriminate|]. intros X EX. rewrite K in EX. injection EX as ->.
        cbn. destruct (operand_for f y) as [j Y|[w|Y]]; cbn; now rewrite Nat.eqb_refl.
      + destruct (var_bound V f i y H Ey) as [K ->]. split; [apply nth_error_Some; rewrite K; discriminate|]. intros X EX. rewrite K in EX. injection EX as ->.
        cbn. unfold rel_form. destruct (operand_for e x) as [j Y|[w|Y]]; cbn; rewrite Nat.eqb_refl; try apply orb_true_r; reflexivity.
    - apply bind_inv in E as (d & Ed & E). exact (IH d Ed H).
    - apply bind_inv in E as (d & Ed & E). apply bind_inv in E as (d' & Ed' & E). apply orb_true_iff in H as [H|H].
      + destruct (IHt d Ed H) as [A B]. split; [exact A|]. intros X EX. cbn. now rewrite (B X EX).
      + destruct (IHu d' Ed' H) as [A B]. split; [exact A|]. intros X EX. cbn. rewrite (B X EX). apply orb_true_r.
    - apply bind_inv in E as (d & Ed & E). apply bind_inv in E as (d' & Ed' & E). apply orb_true_iff in H as [H|H].
      + destruct (IHt d Ed H) as [A B]. split; [exact A|]. intros X EX. cbn. now rewrite (B X EX).
      + destruct (IHu d' Ed' H) as [A B]. split; [exact A|]. intros X EX. cbn. rewrite (B X EX). apply orb_true_r.
  Qed.

  (** ** Conditions of enclosing branches *)
  Definition signed (pol : bool) (f : cform N) : cform N := if pol then f else GNot f.
  Definition entry (V : list (arg N)) (VS : list N) (br : branch N) (c : cond N) : Prop :=
    let '(ks, pol, t) := br in
    exists f, build dbg (signed pol f) = Ret c /\ legal f
      /\ (forall rho, agrees rho VS -> inside rho f /\ truth rho f pol)
      /\ (all_vary ks t = true -> comparisons f = true /\ forall p, conjunctive (nnf p f) = conj_test p t)
      /\ (forall i, names i t = true -> i < length V /\ forall X, nth_error V i = Some (Iv X) -> mentions i f = true).
  Lemma agrees_app rho VS w : agrees rho (VS ++ w) -> agrees rho VS.
  Proof. intros H i v E. apply H. rewrite nth_error_app1; [exact E|]. apply nth_error_Some. rewrite E. discriminate. Qed.
  Lemma entry_app V VS br c a w : entry V VS br c -> entry (V ++ [a]) (VS ++ [w]) br c.
  Proof.
    destruct br as [[ks pol] t]. intros (f & B & L & T & C & M'). exists f. repeat (split; [assumption|]). split; [|split].
    - intros rho A. apply T. exact (agrees_app rho VS [w] A).
    - exact C.
    - intros i H. destruct (M' i H) as [Hi K]. split; [rewrite app_length; cbn; lia|]. intros X. rewrite nth_error_app1 by exact Hi. apply K.
  Qed.
  Lemma entries_app V VS bs cs a w : Forall2 (entry V VS) bs cs -> Forall2 (entry (V ++ [a]) (VS ++ [w])) bs cs.
  Proof. intros H. induction H; constructor; auto using entry_app. Qed.
  Definition good_branch (b : branch N) : bool := let '(ks, pol, t) := b in all_vary ks t && conj_test pol t.
  Definition naming (x : nat) (b : branch N) : bool := let '(_, _, t) := b in names x t.
  Lemma ikexp_ok V VS bs cs k c x X : Forall2 (entry V VS) bs cs -> nth_error V x = Some (Iv X) -> ikexp cs k = Ret c ->
    all_k good_branch bs k = true ->
    exists f, build dbg f = Ret c /\ legal f /\ unmixed f = true /\ conjunctive (nnf true f) = true
      /\ (some_k (naming x) bs k = true -> mentions x f = true) /\ (forall rho, agrees rho VS -> inside rho f /\ truth rho f true)
      /\ skexp (repeat true (length bs)) k = Ret true.
  Proof.
    intros HF HX. revert c. induction k as [k|k IHk l IHl]; intros c E H; cbn [ikexp all_k some_k skexp] in *.
    - destruct (nth_error cs k) as [c'|] eqn:Ec; [|discriminate]. injection E as ->. destruct (nth_error bs k) as [b|] eqn:Eb; [|discriminate].
      assert (En : entry V VS b c).
      { clear - HF Ec Eb. revert k Ec Eb. induction HF as [|b0 c0 bs cs H _ IH]; intros [|k] Ec Eb; try discriminate; cbn in *; [injection Ec as ->; injection Eb as ->; exact H|eauto]. }
      assert (Er : nth_error (repeat true (length bs)) k = Some true).
      { clear - Eb. revert k Eb. induction bs as [|b0 bs IH]; intros [|k] Eb; try discriminate; cbn in *; [reflexivity|eauto]. }
      rewrite Er. destruct b as [[ks pol] t]. destruct En as (f & B & L & T & C & M'). cbn in H. apply andb_true_iff in H as [H1 H2]. destruct (C H1) as [C1 C2].
      exists (signed pol f). split; [exact B|]. split; [destruct pol; exact L|]. split.
      { destruct pol; cbn; [exact (cmp_unmixed f C1)|rewrite C1; apply orb_true_r]. }
      split. { destruct pol; cbn [signed nnf]; [now rewrite C2|]. rewrite (comparisons_not_plain _ C1). cbn [negb]. now rewrite C2. }
      split. { cbn. intros K. destruct (M' x K) as [_ K']. destruct pol; exact (K' X HX). }
      split; [|reflexivity]. intros rho A. destruct (T rho A) as [I T']. destruct pol; cbn; [auto|]. split; [exact I|]. exact (tr_not rho f false T').
    - apply bind_inv in E as (d & Ed & E). apply bind_inv in E as (d' & Ed' & E). apply andb_true_iff in H as [H H'].
      destruct (IHk d Ed H) as (f & B & L & U & C & M1 & T & Es), (IHl d' Ed' H') as (g & B' & L' & U' & C' & M1' & T' & Es').
      exists (GAnd f g). split; [cbn [build]; now rewrite B, B'|]. split; [now apply legal_and|]. split; [cbn; now rewrite U, U'|]. split; [cbn; now rewrite C, C'|].
      split. { cbn. intros K. apply orb_true_iff in K as [K|K]; [rewrite (M1 K)|rewrite (M1' K); apply orb_true_r]; reflexivity. }
      split. { intros rho A. destruct (T rho A), (T' rho A). split; [split; assumption|]. exact (tr_and rho f g true true ltac:(assumption) ltac:(assumption)). }
      rewrite Es, Es'. reflexivity.
  Qed.

  (** ** Runs *)
  Definition oks (R : ivl N) : Prop := ok (lo R) /\ ok (hi R).
  Lemma assign_in R Y Z : oks R -> proper Y -> free_assign_partial R Y = Ret Z -> oks Z /\ subset R Z /\ subset Y Z.
  Proof.
    intros [R1 R2] HY E. unfold free_assign_partial, iassign in E. apply bind_inv in E as (? & _ & E). injection E as <-. destruct (proper_oks HO Y HY) as [Y1 Y2]. split.
    - split; cbn; [now apply omin_ok|now apply omax_ok].
    - unfold subset, el, proper in *. cbn. unfold omin, omax. split; intros v [V1 V2]; destruct (o_lt (lo Y) (lo R)) eqn:E1, (o_lt (hi R) (hi Y)) eqn:E2; split; ord HO.
  Qed.
  Lemma subset_trans (A B C : ivl N) : subset A B -> subset B C -> subset A C. Proof. intros H K v Hv. apply K, H, Hv. Qed.
  Lemma grow p : forall V cs R Z, pclean M dbg V cs p -> oks R -> LangModel.irun M dbg V cs p R = Ret Z -> oks Z /\ subset R Z.
  Proof.
    induction p as [|e|p IHp q IHq|e p IHp|f IHf p IHp|t p IHp q IHq|x k p IHp]; intros V cs R Z Cl HR E; cbn [LangModel.irun pclean] in *.
    - injection E as <-. split; [exact HR|]. intros v; auto.
    - apply bind_inv in E as (x & Ex & E). destruct (assign_in R (as_ivl x) Z HR (as_ivl_proper x (eclean_number V e x Cl Ex)) E) as (A & B & _). auto.
    - destruct Cl as [C1 C2]. apply bind_inv in E as (Y & EY & E). destruct (IHp V cs R Y C1 HR EY) as [A B]. destruct (IHq V cs Y Z C2 A E) as [A' B'].
      split; [exact A'|]. exact (subset_trans R Y Z B B').
    - destruct Cl as [C1 C2]. apply bind_inv in E as (x & Ex & E). exact (IHp _ _ R Z (C2 x Ex) HR E).
    - destruct Cl as [C1 C2]. apply bind_inv in E as (Y & EY & E). exact (IHp _ _ R Z (C2 Y EY) HR E).
    - destruct Cl as [_ Cl]. apply bind_inv in E as (c & Ec & E). destruct (Cl c Ec) as [C1 C2]. apply bind_inv in E as (Y & EY & E).
      assert (G : oks Y /\ subset R Y).
      { destruct (cpossible c); [exact (IHp _ _ R Y (C1 eq_refl) HR EY)|]. injection EY as <-. split; [exact HR|intros v; auto]. }
      destruct G as [A B]. destruct (cpossible_not c); [|injection E as <-; auto]. apply bind_inv in E as (c' & Ec' & E).
      destruct (IHq _ _ Y Z (C2 eq_refl c' Ec') A E) as [A' B']. split; [exact A'|]. exact (subset_trans R Y Z B B').
    - apply bind_inv in E as (a & Ea & E). apply bind_inv in E as (c & Ec & E). destruct a as [v|X]; [discriminate|]. apply bind_inv in E as (Y & EY & E).
      exact (IHp _ _ R Z (Cl X c Y Ea Ec EY) HR E).
  Qed.

  Definition holds_opt (R : ivl N) (o : option N) : Prop := forall v, o = Some v -> el R v.
  Lemma oks_default : oks (@ivl_default N).
  Proof. destruct (nl_zero N HN) as [A B]. split; cbn; unfold ok; [clear - HO B|clear - HO A]; ord HO. Qed.

  Lemma run_ok p : forall V VS cs bs R o Z, Forall2 stands V VS -> Forall2 (entry V VS) bs cs ->
    well_formed (map is_iv V) bs p = true -> pclean M dbg V cs p -> pfuns (monotone M) p -> oks R -> holds_opt R o ->
    LangModel.irun M dbg V cs p R = Ret Z ->
    exists o', srun M dbg VS (repeat true (length bs)) p o = Ret o' /\ holds_opt Z o' /\ (complete p = true \/ o <> None -> o' <> None).
  Proof.
    induction p as [|e|p IHp q IHq|e p IHp|f IHf p IHp|t p IHp q IHq|x k p IHp]; intros V VS cs bs R o Z HV HB WF Cl Fu HR Ho E;
      cbn [LangModel.irun pclean pfuns srun well_formed complete] in *.
    - injection E as <-. exists o. split; [reflexivity|]. split; [exact Ho|]. intros [H|H]; [discriminate|exact H].
    - apply bind_inv in E as (x & Ex & E). destruct (eval_test_ok V VS HV) as [K _]. destruct (K e Cl Fu x Ex) as (v & Ev & Hv). rewrite Ev. cbn [bind]. exists (Some v).
      split; [reflexivity|]. pose proof (eclean_number V e x Cl Ex) as Hx. destruct (assign_in R (as_ivl x) Z HR (as_ivl_proper x Hx) E) as (_ & _ & B).
      split; [|intros _; discriminate]. intros w Hw. injection Hw as <-. apply B. exact (as_ivl_in x v Hx Hv).
    - apply andb_true_iff in WF as [W1 W2]. destruct Cl as [C1 C2], Fu as [F1 F2]. apply bind_inv in E as (Y & EY & E).
      destruct (IHp V VS cs bs R o Y HV HB W1 C1 F1 HR Ho EY) as (o1 & E1 & H1 & N1). destruct (grow p V cs R Y C1 HR EY) as [G1 _]. rewrite E1. cbn [bind].
      destruct (IHq V VS cs bs Y o1 Z HV HB W2 C2 F2 G1 H1 E) as (o2 & E2 & H2 & N2). exists o2. split; [exact E2|]. split; [exact H2|].
      intros [H|H]; [apply orb_true_iff in H as [H|H]|]; auto.
    - destruct Cl as [C1 C2], Fu as [F1 F2]. apply bind_inv in E as (x & Ex & E). destruct (eval_test_ok V VS HV) as [K _]. destruct (K e C1 F1 x Ex) as (v & Ev & Hv). rewrite Ev. cbn [bind].
      apply (IHp (V ++ [x]) (VS ++ [v]) cs bs R o Z); auto.
      + apply Forall2_app; auto.
      + now apply entries_app.
      + rewrite map_app. cbn [map]. destruct (kinds V) as [Kd _]. now rewrite (Kd e x Ex).
    - apply andb_true_iff in WF as [WF W2]. apply andb_true_iff in WF as [Wc W1]. destruct Cl as [C1 C2], Fu as [F1 F2]. apply bind_inv in E as (Y & EY & E).
      destruct (IHf V VS cs bs ivl_default None Y HV HB W1 C1 F1 oks_default ltac:(intros v Hv; discriminate Hv) EY) as (o1 & E1 & H1 & N1). rewrite E1. cbn [bind].
      destruct o1 as [v|]; [|destruct (N1 (or_introl Wc) eq_refl)].
      apply (IHp (V ++ [Iv Y]) (VS ++ [v]) cs bs R o Z); auto.
      + apply Forall2_app; auto. constructor; [exact (H1 v eq_refl)|constructor].
      + now apply entries_app.
      + rewrite map_app. exact W2.
    - apply andb_true_iff in WF as [W1 W2]. destruct Cl as [Ct Cl], Fu as (Ft & F1 & F2). apply bind_inv in E as (c & Ec & E). destruct (Cl c Ec) as [C1 C2].
      destruct (eval_test_ok V VS HV) as [_ K]. pose proof (K t Ct Ft c Ec) as T. pose proof T as (L & b & Eb & Tb). pose proof (test_member V VS t c b T Ec Eb) as Mb.
      apply bind_inv in E as (Y & EY & E). rewrite Eb. cbn [bind].
      assert (GY : oks Y /\ subset R Y).
      { destruct (cpossible c); [exact (grow p _ _ R Y (C1 eq_refl) HR EY)|]. injection EY as <-. split; [exact HR|intros v; auto]. }
      destruct GY as [GY SY].
      assert (GZ : subset Y Z).
      { destruct (cpossible_not c); [|injection E as <-; intros v; auto]. apply bind_inv in E as (c' & Ec' & E). exact (proj2 (grow q _ _ Y Z (C2 eq_refl c' Ec') GY E)). }
      assert (En : forall pol d, build dbg (signed pol (form V t)) = Ret d -> b = pol -> Forall2 (entry V VS) ((map is_iv V, pol, t) :: bs) (d :: cs)).
      { intros pol d Ed ->. constructor; [|exact HB]. exists (form V t). split; [exact Ed|]. split; [exact L|]. split; [exact Tb|].
        split; [exact (form_cmp V t c Ec)|]. intros i Hi. exact (form_names V t c i Ec Hi). }
      destruct b; cbn [possibly_b possibly_not_b negb].
      + rewrite (cpossible_iff c) in EY, C1. apply bmember_iff in Mb. rewrite Mb in EY, C1.
        destruct (IHp V VS (c :: cs) ((map is_iv V, true, t) :: bs) R o Y HV (En true c (itest_build V t c Ec) eq_refl) W1 (C1 eq_refl) F1 HR Ho EY) as (o1 & E1 & H1 & N1).
        cbn [length repeat] in E1. rewrite E1. cbn [bind]. exists o1. split; [reflexivity|].
        split; [intros v Hv; apply GZ, (H1 v Hv)|]. intros [H|H]; apply N1; [|now right]. apply andb_true_iff in H as [H _]. now left.
      + cbn [bind]. assert (Pn : cpossible_not c = true).
        { apply bmember_iff in Mb. destruct c as [b'|s|s|s|s|s|s|s]; try exact Mb. destruct b'; [discriminate Mb|reflexivity]. }
        rewrite Pn in E, C2. apply bind_inv in E as (c' & Ec' & E).
        assert (Bn : build dbg (signed false (form V t)) = Ret c') by (cbn [signed build]; rewrite (itest_build V t c Ec); exact Ec').
        destruct (IHq V VS (c' :: cs) ((map is_iv V, false, t) :: bs) Y o Z HV (En false c' Bn eq_refl) W2 (C2 eq_refl c' Ec') F2 GY ltac:(intros v Hv; apply SY, Ho, Hv) E) as (o1 & E1 & H1 & N1).
        exists o1. split; [exact E1|]. split; [exact H1|].
        intros [H|H]; apply N1; [|now right]. apply andb_true_iff in H as [_ H]. now left.
    - apply andb_true_iff in WF as [WF W4]. apply andb_true_iff in WF as [WF W3]. apply andb_true_iff in WF as [W1 W2].
      apply bind_inv in E as (a & Ea & E). apply bind_inv in E as (c & Ec & E). destruct a as [v|X]; [discriminate|]. apply bind_inv in E as (Y & EY & E).
      destruct (lookup_in V VS x (Iv X) HV Ea) as (w & Ew & Hw). rewrite Ew. cbn [bind].
      assert (EX : nth_error V x = Some (Iv X)) by (unfold ilookup in Ea; destruct (nth_error V x); [|discriminate]; now injection Ea as ->).
      destruct (ikexp_ok V VS bs cs k c x X HB EX Ec W2) as (f & B & L & U & C & M1 & T & Es). rewrite Es. cbn [bind]. unfold scalar_constrain. cbn [expects bind].
      destruct (some_rho VS) as [rho A]. destruct (T rho A) as [I T']. assert (Er : rho x = w).
      { apply A. unfold slookup in Ew. destruct (nth_error VS x); [|discriminate]. now injection Ew as ->. }
      destruct (constrain_sound HO dbg x f X rho L U C (M1 W3) I) as (Y' & EY' & HY'); [rewrite Er; exact Hw|exact T'|].
      unfold constrain_by in EY'. rewrite B in EY'. cbn [bind] in EY'. rewrite EY in EY'. injection EY' as <-. rewrite Er in HY'.
      apply (IHp (V ++ [Iv Y]) (VS ++ [w]) cs bs R o Z); auto.
      + apply Forall2_app; auto.
      + now apply entries_app.
      + rewrite map_app. exact W4.
      + exact (Cl X c Y Ea Ec EY).
  Qed.
End Lang.
