(** Proofs about [constrain] with an operand of a narrower type of the same kind. *)
From Coq Require Import ZArith Reals Bool Lia.
From Flocq Require Import Core BinarySingleNaN.
From Verif Require Import Outcome SetModel Spec SetProofs Num NumLaws IntervalModel IvlSpec IvlProofs IntNum IntProofs XReal FloatNum FloatProofs ValueTypes IvlWrap
  ConstrainModel CondSpec ConstrainProofs ConstrainProofs2 ConstrainProofs4 ConstrainProofs5 ConstrainProofs6 MixedModel MixedProofs MixedArithModel ConvProofs AlgoProofs4 WidenSpec SearchModel SearchSpec.

Section Widen.
  Context {I T : num} (HI : num_laws I) (HT : num_laws T) (c : I -> T) (C : conv_laws I T c) (dbg : bool).
  Let OI := nl_ord I HI.
  Let OT := nl_ord T HT.
  (** [succ], [pred] commute with the conversion; the kinds agree. *)
  Hypothesis pred_conv : forall a p : I, o_pred a = Ret p -> o_pred (c a) = Ret (c p).
  Hypothesis succ_conv : forall a p : I, o_succ a = Ret p -> o_succ (c a) = Ret (c p).
  Hypothesis disc_onto : o_disc T = true -> n_float T = false.
  Implicit Types (X Z : ivl T) (y : arg I) (a : T) (n m : I).
  Notation mono := (cv_mono _ _ _ C).

  Lemma finish (o : outcome (ivl T * bool)) (Z : outcome (ivl T)) :
    o = (z <- Z ;; Ret (z, true)) -> ('(Z, considered) <- o ;; expects considered ;;; Ret Z) = Z.
  Proof. intros ->. now destruct Z. Qed.
  Lemma widen_below X y : aproper y -> (exists p, o_pred (aupper y) = Ret p) ->
    mixed_below c dbg X y = constrain dbg 0 X (CLt (compare_lt (Iv X) (conv_arg c y)) (OpId 0 X) (OpVal (conv_arg c y))).
  Proof.
    intros Py (p & Ep). unfold mixed_below, constrain. cbn [dconstrain op_is Nat.eqb andb op_arg]. rewrite (conv_upper c y), Ep, (pred_conv _ _ Ep).
    destruct (bcontains _ true); [|reflexivity]. destruct (expects_debug dbg _); try reflexivity. cbn [bind]. destruct (mk _ _); reflexivity.
  Qed.
  Lemma widen_above X y : aproper y -> (exists p, o_succ (alower y) = Ret p) ->
    mixed_above c dbg X y = constrain dbg 0 X (CLt (compare_lt (conv_arg c y) (Iv X)) (OpVal (conv_arg c y)) (OpId 0 X)).
  Proof.
    intros Py (p & Ep). unfold mixed_above, constrain. cbn [dconstrain op_is Nat.eqb andb op_arg negb orb expects bind]. rewrite (conv_lower c y), Ep, (succ_conv _ _ Ep).
    destruct (bcontains _ true); [|reflexivity]. destruct (expects_debug dbg _); try reflexivity. cbn [bind]. destruct (mk _ _); reflexivity.
  Qed.
  Lemma widen_eq R left X y : proper X -> aproper y -> steps R left y -> mixed_constrain c dbg R left X y = constrain_by dbg 0 X (mform c R left X y).
  Proof.
    intros PX Py (m & S).
    destruct R; try (apply (mixed_weak OT OI c dbg mono); auto; discriminate).
    all: unfold mixed_constrain; rewrite (MixedProofs.mixed_pre OT OI dbg X y PX Py); cbn [bind]; unfold constrain_by.
    all: pose proof (mform_legal c mono RLt left X y PX Py) as L; pose proof (mform_legal c mono RGt left X y PX Py) as L'; unfold mform in *; destruct left;
      (rewrite (rel_build OT dbg _ _ _ L) || rewrite (rel_build OT dbg _ _ _ L')); cbn [bind]; cbn in S.
    all: (exact (widen_below X y Py (ex_intro _ m S)) || exact (widen_above X y Py (ex_intro _ m S))).
  Qed.
  Lemma rel_mono_holds R (left : bool) a n : rel_holds R (if left then a else c n) (if left then c n else a) = mixed_holds c R left a n.
  Proof. unfold mixed_holds. now destruct left. Qed.
  Lemma widen_sound R left X y a n : el X a -> ael y n -> steps R left y -> mixed_holds c R left a n = true ->
    exists Z, mixed_constrain c dbg R left X y = Ret Z /\ el Z a.
  Proof.
    intros Ha Hn S H. pose proof (el_proper OT _ _ Ha) as PX. pose proof (ael_aproper OI _ _ Hn) as Py.
    rewrite widen_eq by assumption. pose proof (mform_legal c mono R left X y PX Py) as L.
    apply (constrain_sound OT dbg 0 (mform c R left X y) X (fun _ => a)); auto.
    - now destruct left.
    - now destruct left.
    - now destruct left.
    - destruct left; (split; [exact Ha|exact Logic.I] || (split; [exact Logic.I|exact Ha])).
    - apply (conv_ael c mono) in Hn. unfold mixed_holds in H. unfold mform. destruct left; [pose proof (tr_rel (fun _ => a) R (TVar 0 X) (TVal (conv_arg c y)) a (c n)) as K|pose proof (tr_rel (fun _ => a) R (TVal (conv_arg c y)) (TVar 0 X) (c n) a) as K]; rewrite H in K; apply K; auto; reflexivity.
  Qed.
  (** A comparison that holds for some number between the converted end points. *)
  Lemma between R (left : bool) y a t : aproper y -> ok a -> ael (conv_arg c y) t -> R <> RNe -> (R = REq -> o_disc T = true) ->
    rel_holds R (if left then a else t) (if left then t else a) = true -> exists n, ael y n /\ mixed_holds c R left a n = true.
  Proof.
    intros Py Oa Ht NR DE H. destruct Ht as [L U]. rewrite (conv_lower c y) in L. rewrite (conv_upper c y) in U.
    pose proof (ael_lower OI y Py) as Al. pose proof (ael_upper OI y Py) as Au.
    assert (X1 : forall n, ael y n -> rel_holds R (if left then a else c n) (if left then c n else a) = true -> exists n, ael y n /\ mixed_holds c R left a n = true).
    { intros n Hn E. exists n. split; [exact Hn|]. now rewrite <- rel_mono_holds. }
    destruct R; try contradiction.
    - destruct (cv_onto _ _ _ C (disc_onto (DE eq_refl)) _ _ _ L U) as (d & D1 & D2 & <-). apply (X1 d); [split; assumption|exact H].
    - destruct left; cbn in H; [apply (X1 _ Au)|apply (X1 _ Al)]; cbn; clear - OT L U H; ord OT.
    - destruct left; cbn in H; [apply (X1 _ Au)|apply (X1 _ Al)]; cbn; clear - OT L U H; ord OT.
    - destruct left; cbn in H; [apply (X1 _ Al)|apply (X1 _ Au)]; cbn; clear - OT L U H; ord OT.
    - destruct left; cbn in H; [apply (X1 _ Al)|apply (X1 _ Au)]; cbn; clear - OT L U H; ord OT.
  Qed.
  Lemma ret_steps R left X y Z : proper X -> aproper y -> mixed_constrain c dbg R left X y = Ret Z -> steps R left y.
  Proof.
    intros PX Py H. unfold mixed_constrain in H. rewrite (MixedProofs.mixed_pre OT OI dbg X y PX Py) in H. cbn [bind] in H. unfold steps.
    assert (B : mixed_below c dbg X y = Ret Z -> exists m, o_pred (aupper y) = Ret m).
    { unfold mixed_below. destruct (bcontains _ true); [|discriminate]. intros K. apply bind_inv in K as (u & _ & K). apply bind_inv in K as (p & Ep & _). eauto. }
    assert (A : mixed_above c dbg X y = Ret Z -> exists m, o_succ (alower y) = Ret m).
    { unfold mixed_above. destruct (bcontains _ true); [|discriminate]. intros K. apply bind_inv in K as (u & _ & K). apply bind_inv in K as (p & Ep & _). eauto. }
    destruct R; try (eexists; reflexivity); destruct left; cbn; auto.
  Qed.
  Lemma widen_tight R left X y Z : proper X -> aproper y -> R <> RNe -> (R = REq -> o_disc T = true) ->
    mixed_constrain c dbg R left X y = Ret Z -> forall a, el Z a <-> el X a /\ exists n, ael y n /\ mixed_holds c (relaxed T R) left a n = true.
  Proof.
    intros PX Py NR DE H a. rewrite (widen_eq R left X y PX Py (ret_steps R left X y Z PX Py H)) in H.
    pose proof (mform_legal c mono R left X y PX Py) as L. unfold mform in *.
    assert (NR' : relaxed T R <> RNe) by (unfold relaxed; destruct (o_disc T), R; cbn; congruence).
    assert (DE' : relaxed T R = REq -> o_disc T = true) by (unfold relaxed; destruct (o_disc T), R; cbn; try congruence; auto).
    destruct left.
    - rewrite (constrain_tight OT dbg 0 R (TVar 0 X) (TVal (conv_arg c y)) X Z L PX) by (try (split; [reflexivity|exact Logic.I]); auto).
      fold (relaxed T R). unfold solution. cbn [tmentions tel Nat.eqb]. split.
      + intros [(_ & Ha & t & Ht & E)|(K & _)]; [|discriminate K]. split; [exact Ha|]. exact (between (relaxed T R) true y a t Py (el_ok OT X a Ha) Ht NR' DE' E).
      + intros (Ha & n & Hn & E). left. split; [reflexivity|]. split; [exact Ha|]. exists (c n). split; [now apply (conv_ael c mono)|exact E].
    - rewrite (constrain_tight OT dbg 0 R (TVal (conv_arg c y)) (TVar 0 X) X Z L PX) by (try (split; [exact Logic.I|reflexivity]); auto).
      fold (relaxed T R). unfold solution. cbn [tmentions tel Nat.eqb]. split.
      + intros [(K & _)|(_ & Ha & t & Ht & E)]; [discriminate K|]. split; [exact Ha|]. exact (between (relaxed T R) false y a t Py (el_ok OT X a Ha) Ht NR' DE' E).
      + intros (Ha & n & Hn & E). right. split; [reflexivity|]. split; [exact Ha|]. exists (c n). split; [now apply (conv_ael c mono)|exact E].
  Qed.
  Lemma between_ne (left : bool) y a t : aproper y -> ok a -> ael (conv_arg c y) t ->
    rel_holds RNe (if left then a else t) (if left then t else a) = true -> exists n, ael y n /\ mixed_holds c RNe left a n = true.
  Proof.
    intros Py Oa Ht H. destruct Ht as [L U]. rewrite (conv_lower c y) in L. rewrite (conv_upper c y) in U.
    pose proof (ael_lower OI y Py) as Al. pose proof (ael_upper OI y Py) as Au.
    destruct (mixed_holds c RNe left a (alower y)) eqn:El; [eauto|]. destruct (mixed_holds c RNe left a (aupper y)) eqn:Eu; [eauto|]. exfalso.
    unfold mixed_holds in El, Eu. cbn [rel_holds] in El, Eu, H. apply negb_true_iff in H.
    destruct left; apply negb_false_iff in El, Eu; clear - OT L U Oa H El Eu; ord OT.
  Qed.
  Lemma widen_ne left X y Z : proper X -> aproper y -> o_disc T = true -> mixed_constrain c dbg RNe left X y = Ret Z ->
    is_hull (fun a => el X a /\ exists n, ael y n /\ mixed_holds c RNe left a n = true) Z.
  Proof.
    intros PX Py D H. rewrite (widen_eq RNe left X y PX Py (ret_steps RNe left X y Z PX Py H)) in H.
    pose proof (mform_legal c mono RNe left X y PX Py) as L. unfold mform in *. destruct left.
    - refine (is_hull_ext _ _ _ _ (constrain_ne_hull OT dbg 0 (TVar 0 X) (TVal (conv_arg c y)) X Z L PX _ D eq_refl H)); [|split; [reflexivity|exact Logic.I]].
      intros a. unfold solution. cbn [tmentions tel Nat.eqb]. split.
      + intros [(_ & Ha & t & Ht & E)|(K & _)]; [|discriminate K]. split; [exact Ha|]. exact (between_ne true y a t Py (el_ok OT X a Ha) Ht E).
      + intros (Ha & n & Hn & E). left. split; [reflexivity|]. split; [exact Ha|]. exists (c n). split; [now apply (conv_ael c mono)|exact E].
    - refine (is_hull_ext _ _ _ _ (constrain_ne_hull OT dbg 0 (TVal (conv_arg c y)) (TVar 0 X) X Z L PX _ D eq_refl H)); [|split; [exact Logic.I|reflexivity]].
      intros a. unfold solution. cbn [tmentions tel Nat.eqb]. split.
      + intros [(K & _)|(_ & Ha & t & Ht & E)]; [discriminate K|]. split; [exact Ha|]. exact (between_ne false y a t Py (el_ok OT X a Ha) Ht E).
      + intros (Ha & n & Hn & E). right. split; [reflexivity|]. split; [exact Ha|]. exists (c n). split; [now apply (conv_ael c mono)|exact E].
  Qed.
  Lemma widen_fails R left X y : proper X -> aproper y -> steps R left y -> (R = REq -> o_disc T = true) ->
    (forall a n, el X a -> ael y n -> mixed_holds c R left a n = false) -> mixed_constrain c dbg R left X y = FailFast.
  Proof.
    intros PX Py S DE H. rewrite (widen_eq R left X y PX Py S). pose proof (mform_legal c mono R left X y PX Py) as L.
    assert (B : forall a t, el X a -> ael (conv_arg c y) t -> rel_holds R (if left then a else t) (if left then t else a) = true -> False).
    { intros a t Ha Ht E. assert (K : exists n, ael y n /\ mixed_holds c R left a n = true).
      { assert (D : R = RNe \/ R <> RNe) by (destruct R; (left; reflexivity) || (right; discriminate)).
        destruct D as [->|D]; [exact (between_ne left y a t Py (el_ok OT X a Ha) Ht E)|exact (between R left y a t Py (el_ok OT X a Ha) Ht D DE E)]. }
      destruct K as (n & Hn & K). rewrite (H a n Ha Hn) in K. discriminate. }
    unfold mform in *. destruct left.
    - apply (constrain_rel OT dbg 0 R (TVar 0 X) (TVal (conv_arg c y)) X L PX); [reflexivity|split; [reflexivity|exact Logic.I]|].
      rewrite possible_rel. intros (a & t & Ha & Ht & E). exact (B a t Ha Ht E).
    - apply (constrain_rel OT dbg 0 R (TVal (conv_arg c y)) (TVar 0 X) X L PX); [reflexivity|split; [exact Logic.I|reflexivity]|].
      rewrite possible_rel. intros (t & a & Ht & Ha & E). exact (B a t Ha Ht E).
  Qed.
End Widen.

Lemma widens_laws I T c : widens I T c -> num_laws I /\ num_laws T /\ conv_laws I T c
  /\ (forall a p : I, o_pred a = Ret p -> o_pred (c a) = Ret (c p)) /\ (forall a p : I, o_succ a = Ret p -> o_succ (c a) = Ret (c p))
  /\ (o_disc T = true -> n_float T = false).
Proof.
  intros [w w' Hw Hw' H|prec emax Hp He prec' emax' Hp' He' H1 H2].
  - split; [apply int_num_laws|]. split; [apply int_num_laws|]. split; [apply int_conv|]. split; [|split; [|reflexivity]]; cbn; intros a p E; apply int_of_ret in E; apply int_of_ret; exact E.
  - split; [apply float_laws|]. split; [apply float_laws|]. split; [now apply float_conv_laws|]. split; [|split; [|discriminate]]; cbn; intros a p E; now injection E as <-.
Qed.
Section Wrap.
  Context {I T : num} {c : I -> T} (W : widens I T c) (dbg : bool).
  Implicit Types (X Z : ivl T) (y : arg I) (a : T) (n : I).
  Lemma W_sound R left X y a n : el X a -> ael y n -> steps R left y -> mixed_holds c R left a n = true -> exists Z, mixed_constrain c dbg R left X y = Ret Z /\ el Z a.
  Proof. destruct (widens_laws I T c W) as (HI & HT & C & P & S & D). exact (widen_sound HI HT c C dbg P S R left X y a n). Qed.
  Lemma W_tight R left X y Z : proper X -> aproper y -> R <> RNe -> (R = REq -> o_disc T = true) ->
    mixed_constrain c dbg R left X y = Ret Z -> forall a, el Z a <-> el X a /\ exists n, ael y n /\ mixed_holds c (relaxed T R) left a n = true.
  Proof. destruct (widens_laws I T c W) as (HI & HT & C & P & S & D). exact (widen_tight HI HT c C dbg P S D R left X y Z). Qed.
  Lemma W_ne left X y Z : proper X -> aproper y -> o_disc T = true -> mixed_constrain c dbg RNe left X y = Ret Z ->
    is_hull (fun a => el X a /\ exists n, ael y n /\ mixed_holds c RNe left a n = true) Z.
  Proof. destruct (widens_laws I T c W) as (HI & HT & C & P & S & D). exact (widen_ne HI HT c C dbg P S left X y Z). Qed.
  Lemma W_fails R left X y : proper X -> aproper y -> steps R left y -> (R = REq -> o_disc T = true) ->
    (forall a n, el X a -> ael y n -> mixed_holds c R left a n = false) -> mixed_constrain c dbg R left X y = FailFast.
  Proof. destruct (widens_laws I T c W) as (HI & HT & C & P & S & D). exact (widen_fails HI HT c C dbg P S D R left X y). Qed.
End Wrap.

(** Data for the examples. *)
Definition int_to_long : int32 -> int64 := int_widen 32 64 le_2_32 ltac:(discriminate).
Lemma int_to_long_widens : widens int32 int64 int_to_long.
Proof. apply wi_int. Qed.
Lemma float_to_double_widens : widens float32 float64 float_to_double.
Proof. apply wi_float; discriminate. Qed.
(** constrain(x, x < INT_MIN) with x = [-2^40, 0] of type interval<long>. *)
Definition Xlong : ivl int64 := Ivl (i64 (-1099511627776)) (i64 0).
Lemma widen_ub : exists (X : ivl int64) (n : int32) (a : int64), el X a /\ o_lt a (int_to_long n) = true
  /\ mixed_constrain int_to_long true RLt true X (Sc n) = UB.
Proof. exists Xlong, n_bot, (i64 (-1099511627776)). split; [split; reflexivity|]. split; reflexivity. Qed.
