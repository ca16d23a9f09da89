(** Proofs about [constrain] with operands of different value types. *)
From Coq Require Import ZArith Reals Bool Lia Lra.
From Flocq Require Import Core BinarySingleNaN.
From Verif Require Import Outcome SetModel Spec SetProofs SetProofs2 Num NumLaws IntervalModel IvlSpec IvlProofs IntNum IntProofs XReal FloatNum FloatProofs ValueTypes IvlWrap
  ConstrainModel CondSpec ConstrainProofs ConstrainProofs2 ConstrainProofs3 ConstrainProofs4 ConstrainProofs5 ConstrainProofs6 MixedModel.

(** Conversion of integers is monotone. *)
Lemma int_to_float_x w prec emax Hp He (n : int w) : f2x prec emax (int_to_float w prec emax Hp He n) = rd prec emax (IZR (val n)).
Proof.
  unfold int_to_float. pose proof (binary_normalize_correct prec emax Hp He mode_NE (val n) 0 false) as H. cbn zeta in H.
  replace (F2R (Float radix2 (val n) 0)) with (IZR (val n)) in H by (unfold F2R; cbn; lra). cbn [round_mode] in H.
  unfold rd. destruct (Rlt_bool _ _).
  - destruct H as (H1 & H2 & _). rewrite f2x_finite by auto. now rewrite H1.
  - rewrite overflow_ne in H. exact (f2x_inf _ _ _ _ H).
Qed.
Lemma int_to_float_mono w prec emax Hp He (a b : int w) : val a <= val b -> Bleb (int_to_float w prec emax Hp He a) (int_to_float w prec emax Hp He b) = true.
Proof. intros H. rewrite leb_xle, !int_to_float_x. apply (rd_mono _ _ Hp). now apply IZR_le. Qed.

Section Mixed.
  Context {O I : ordty} (HO : ord_laws O) (HI : ord_laws I) (conv : I -> O) (dbg : bool).
  Hypothesis mono : forall a b : I, o_le a b = true -> o_le (conv a) (conv b) = true.
  Hypothesis DO : o_disc O = false.
  Hypothesis DI : o_disc I = true.
  Hypothesis iok : forall n : I, ok n.
  Implicit Types (X Z : ivl O) (y : arg I) (a : O) (n m : I).

  Lemma conv_lower y : alower (conv_arg conv y) = conv (alower y). Proof. now destruct y. Qed.
  Lemma conv_upper y : aupper (conv_arg conv y) = conv (aupper y). Proof. now destruct y. Qed.
  Lemma conv_proper y : aproper y -> aproper (conv_arg conv y).
  Proof. unfold aproper. rewrite conv_lower, conv_upper. apply mono. Qed.
  Lemma conv_ael y n : ael y n -> ael (conv_arg conv y) (conv n).
  Proof. intros [A B]. unfold ael. rewrite conv_lower, conv_upper. split; now apply mono. Qed.

  Definition mform (R : rel) (left : bool) X y : cform O :=
    if left then GRel R (TVar 0 X) (TVal (conv_arg conv y)) else GRel R (TVal (conv_arg conv y)) (TVar 0 X).
  Lemma mform_legal R left X y : proper X -> aproper y -> legal (mform R left X y).
  Proof. intros PX Py. apply conv_proper in Py. destruct left; (split; [split; assumption|exact Logic.I]). Qed.
  Lemma mixed_pre X y : proper X -> aproper y -> expects_debug dbg (assigned X && aassigned y) = Ret tt.
  Proof.
    intros PX Py. apply expects_debug_true. rewrite (proper_assigned HO X PX). destruct y as [n|Y]; [reflexivity|]. cbn. now apply (proper_assigned HI).
  Qed.
  Lemma mixed_weak R left X y : proper X -> aproper y -> R <> RLt -> R <> RGt ->
    mixed_constrain conv dbg R left X y = constrain_by dbg 0 X (mform R left X y).
  Proof.
    intros PX Py N1 N2. unfold mixed_constrain. rewrite (mixed_pre X y PX Py). cbn [bind]. unfold constrain_by.
    pose proof (mform_legal R left X y PX Py) as L. unfold mform in *. destruct left; rewrite (rel_build HO dbg _ _ _ L); cbn [bind]; destruct R; try contradiction; reflexivity.
  Qed.
  Lemma mixed_weak_sound R left X y a n : el X a -> ael y n -> R <> RLt -> R <> RGt -> mixed_holds conv R left a n = true ->
    exists Z, mixed_constrain conv dbg R left X y = Ret Z /\ el Z a.
  Proof.
    intros Ha Hn N1 N2 H. pose proof (el_proper HO _ _ Ha) as PX. pose proof (ael_aproper HI _ _ Hn) as Py.
    rewrite mixed_weak by assumption. pose proof (mform_legal R left X y PX Py) as L.
    apply (constrain_sound HO dbg 0 (mform R left X y) X (fun _ => a)); auto.
    - now destruct left.
    - now destruct left.
    - now destruct left.
    - destruct left; (split; [exact Ha|exact Logic.I] || (split; [exact Logic.I|exact Ha])).
    - apply conv_ael in Hn. unfold mixed_holds in H. unfold mform. destruct left; [pose proof (tr_rel (fun _ => a) R (TVar 0 X) (TVal (conv_arg conv y)) a (conv n)) as K|pose proof (tr_rel (fun _ => a) R (TVal (conv_arg conv y)) (TVar 0 X) (conv n) a) as K]; rewrite H in K; apply K; auto; reflexivity.
  Qed.

  (** Strict comparisons: what the code computes, and what it keeps. *)
  Lemma mixed_below_iff X y Z : proper X -> mixed_below conv dbg X y = Ret Z ->
    exists p, o_pred (aupper y) = Ret p /\ forall a, el Z a <-> el X a /\ o_le a (conv p) = true.
  Proof.
    intros PX H. unfold mixed_below in H. destruct (bcontains _ true) eqn:E; [|discriminate].
    apply bind_inv in H. destruct H as (u & _ & H). apply bind_inv in H. destruct H as (p & Ep & H). apply mk_iff in H. destruct H as [-> _].
    exists p. split; [exact Ep|]. intros a. destruct (proper_oks HO _ PX) as [X1 X2]. pose proof (mono _ _ (iok p)) as Hp.
    unfold el; cbn [lo hi]. rewrite (le_omin HO) by assumption. tauto.
  Qed.
  Lemma mixed_above_iff X y Z : proper X -> mixed_above conv dbg X y = Ret Z ->
    exists p, o_succ (alower y) = Ret p /\ forall a, el Z a <-> el X a /\ o_le (conv p) a = true.
  Proof.
    intros PX H. unfold mixed_above in H. destruct (bcontains _ true) eqn:E; [|discriminate].
    apply bind_inv in H. destruct H as (u & _ & H). apply bind_inv in H. destruct H as (p & Ep & H). apply mk_iff in H. destruct H as [-> _].
    exists p. split; [exact Ep|]. intros a. destruct (proper_oks HO _ PX) as [X1 X2]. pose proof (mono _ _ (iok p)) as Hp.
    unfold el; cbn [lo hi]. rewrite (omax_le HO) by assumption. tauto.
  Qed.
  Lemma mixed_below_keep X y a n m : el X a -> ael y n -> o_lt a (conv n) = true -> o_pred n = Ret m -> o_le a (conv m) = true ->
    exists Z, mixed_below conv dbg X y = Ret Z /\ el Z a.
  Proof.
    intros Ha Hn H Em Hm. pose proof (el_proper HO _ _ Ha) as PX. pose proof (ael_aproper HI _ _ Hn) as Py.
    destruct (compare_lt_exact HO (Iv X) (conv_arg conv y) PX (conv_proper _ Py)) as [_ V].
    assert (T : bcontains (compare_lt (Iv X) (conv_arg conv y)) true = true).
    { apply bmember_iff, V. exists a, (conv n). auto using conv_ael. }
    unfold mixed_below. rewrite T. destruct (conv_ael _ _ Hn) as [_ Up]. rewrite conv_upper in Up.
    rewrite expects_debug_true by (destruct Ha as [Hl _]; clear - HO Hl H Up; ord HO). cbn [bind].
    destruct Hn as [_ Hn]. pose proof (ol_pred I HI DI _ _ Em m) as [_ Lm]. specialize (Lm (iok m)).
    assert (Lu : o_lt m (aupper y) = true) by (clear - HI Lm Hn; ord HI).
    destruct (ol_pred_def I HI DI _ _ Lu) as [p Ep]. rewrite Ep. cbn [bind].
    apply (ol_pred I HI DI _ _ Ep) in Lu. apply mono in Lu. destruct Ha as [Hl Hh].
    assert (Ap : o_le a (conv p) = true) by (clear - HO Hm Lu; ord HO).
    assert (Am : o_le a (omin (hi X) (conv p)) = true) by now apply omin_glb.
    eexists. split; [apply mk_iff; split; [reflexivity|]|split; assumption].
    clear - HO Hl Am. ord HO.
  Qed.
  Lemma mixed_above_keep X y a n m : el X a -> ael y n -> o_lt (conv n) a = true -> o_succ n = Ret m -> o_le (conv m) a = true ->
    exists Z, mixed_above conv dbg X y = Ret Z /\ el Z a.
  Proof.
    intros Ha Hn H Em Hm. pose proof (el_proper HO _ _ Ha) as PX. pose proof (ael_aproper HI _ _ Hn) as Py.
    destruct (compare_lt_exact HO (conv_arg conv y) (Iv X) (conv_proper _ Py) PX) as [_ V].
    assert (T : bcontains (compare_lt (conv_arg conv y) (Iv X)) true = true).
    { apply bmember_iff, V. exists (conv n), a. auto using conv_ael. }
    unfold mixed_above. rewrite T. destruct (conv_ael _ _ Hn) as [Up _]. rewrite conv_lower in Up.
    rewrite expects_debug_true by (destruct Ha as [_ Hl]; clear - HO Hl H Up; ord HO). cbn [bind].
    destruct Hn as [Hn _]. pose proof (ol_succ I HI DI _ _ Em m) as [_ Lm]. specialize (Lm (iok m)).
    assert (Lu : o_lt (alower y) m = true) by (clear - HI Lm Hn; ord HI).
    destruct (ol_succ_def I HI DI _ _ Lu) as [p Ep]. rewrite Ep. cbn [bind].
    apply (ol_succ I HI DI _ _ Ep) in Lu. apply mono in Lu. destruct Ha as [Hl Hh].
    assert (Ap : o_le (conv p) a = true) by (clear - HO Hm Lu; ord HO).
    assert (Am : o_le (omax (conv p) (lo X)) a = true) by now apply omax_lub.
    eexists. split; [apply mk_iff; split; [reflexivity|]|split; assumption].
    clear - HO Hh Am. ord HO.
  Qed.
  Lemma mixed_strict_keep R left X y a n m : el X a -> ael y n -> mixed_holds conv R left a n = true -> mixed_step R left n = Ret m -> mixed_holds conv (rel_weak R) left a m = true ->
    exists Z, mixed_constrain conv dbg R left X y = Ret Z /\ el Z a.
  Proof.
    intros Ha Hn H E Hm. pose proof (el_proper HO _ _ Ha) as PX. pose proof (ael_aproper HI _ _ Hn) as Py.
    destruct R; try (now apply (mixed_weak_sound _ left X y a n); auto; discriminate);
      unfold mixed_constrain; rewrite (mixed_pre X y PX Py); cbn [bind]; unfold mixed_holds in H, Hm; destruct left; cbn in H, E, Hm;
      (now apply (mixed_below_keep X y a n m)) || (now apply (mixed_above_keep X y a n m)).
  Qed.
End Mixed.

Lemma int_oks w Hw (n : int_num w Hw) : ok n.
Proof. exact (nl_int_ok _ (int_num_laws w Hw) eq_refl n). Qed.
Section FloatInt.
  Variables (w : Z) (Hw : (2 <= w)%Z) (prec emax : Z) (Hp : Prec_gt_0 prec) (He : Prec_lt_emax prec emax).
  Notation F := (float_num prec emax Hp He).
  Notation J := (int_num w Hw).
  Notation conv := (int_to_float w prec emax Hp He : J -> F).
  Lemma conv_mono (a b : J) : o_le a b = true -> o_le (conv a) (conv b) = true.
  Proof. intros H. apply int_to_float_mono. cbn in H. now apply Z.leb_le in H. Qed.
  Lemma mixed_weak_F dbg R left (X : ivl F) (y : arg J) (a : F) (n : J) : el X a -> ael y n -> R <> RLt -> R <> RGt -> mixed_holds conv R left a n = true ->
    exists Z, mixed_constrain conv dbg R left X y = Ret Z /\ el Z a.
  Proof.
    apply mixed_weak_sound; [apply (nl_ord F), float_laws|apply (nl_ord J), int_num_laws|exact conv_mono].
  Qed.
  Lemma mixed_strict_F dbg R left (X : ivl F) (y : arg J) (a : F) (n m : J) : el X a -> ael y n -> mixed_holds conv R left a n = true ->
    mixed_step R left n = Ret m -> mixed_holds conv (rel_weak R) left a m = true -> exists Z, mixed_constrain conv dbg R left X y = Ret Z /\ el Z a.
  Proof.
    apply mixed_strict_keep; [apply (nl_ord F), float_laws|apply (nl_ord J), int_num_laws|exact conv_mono|reflexivity|apply int_oks].
  Qed.
End FloatInt.

(** constrain(x, x < 5) with x = [0, 10] of type interval<double> gives [0, 4]. *)
Definition X010 : ivl float64 := Ivl (f64 0 0) (f64 10 0).
Lemma mixed_drops : exists (X Z : ivl float64) (n : int32) (a : float64), el X a /\ o_lt a (int_to_double n) = true
  /\ mixed_constrain int_to_double true RLt true X (Sc n) = Ret Z /\ ~ el Z a.
Proof.
  destruct (ret_witness (mixed_constrain int_to_double true RLt true X010 (Sc (i32 5))) (fun Z => negb (contains Z (f64 9 (-1))))) as (Z & E & H); [vm_compute; reflexivity|].
  exists X010, Z, (i32 5), (f64 9 (-1)). split; [split; vm_compute; reflexivity|]. split; [vm_compute; reflexivity|]. split; [exact E|].
  intros K. apply contains_iff in K. rewrite K in H. discriminate.
Qed.
(** constrain(x, x < 0) with x = [-0.5, 2] fails fast. *)
Definition Xhalf : ivl float64 := Ivl (f64 (-1) (-1)) (f64 2 0).
Lemma mixed_fails : exists (X : ivl float64) (n : int32) (a : float64), el X a /\ o_lt a (int_to_double n) = true
  /\ mixed_constrain int_to_double true RLt true X (Sc n) = FailFast /\ mixed_constrain int_to_double false RLt true X (Sc n) = FailFast.
Proof.
  exists Xhalf, (i32 0), (f64 (-1) (-1)). split; [split; vm_compute; reflexivity|]. split; [vm_compute; reflexivity|]. split; vm_compute; reflexivity.
Qed.
(** constrain(x, x < INT_MIN) with x = [-2^40, 0] decrements INT_MIN. *)
Definition Xlow : ivl float64 := Ivl (f64 (-1) 40) (f64 0 0).
Lemma mixed_ub : exists (X : ivl float64) (n : int32) (a : float64), el X a /\ o_lt a (int_to_double n) = true
  /\ mixed_constrain int_to_double true RLt true X (Sc n) = UB.
Proof. exists Xlow, n_bot, (f64 (-1) 40). split; [split; vm_compute; reflexivity|]. split; [vm_compute; reflexivity|]. vm_compute. reflexivity. Qed.
