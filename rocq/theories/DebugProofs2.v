(** Debug checks, continued: blending, and rejection of unassigned operands. *)
From Coq Require Import Bool List ZArith.
From Verif Require Import Outcome SetModel Spec SetProofs Num NumLaws IntervalModel IntNum IterModel ConstrainModel AlgoModel MathModel XReal MathSpec MathProofs FloatMathProofs DebugProofs BlendProofs.
Import ListNotations.

(** An outcome that is a value or a failed check. *)
Definition quiet {A} (o : outcome A) : Prop := (exists a, o = Ret a) \/ o = FailFast.
Lemma quiet_ret {A} (a : A) : quiet (Ret a). Proof. left. eauto. Qed.
Lemma quiet_expects b : quiet (expects b). Proof. destruct b; [apply quiet_ret|now right]. Qed.
Lemma quiet_bind {A B} (o : outcome A) (f : A -> outcome B) : quiet o -> (forall a, quiet (f a)) -> quiet (bind o f).
Proof. intros [[a ->]| ->] H; [apply H|now right]. Qed.
Lemma quiet_expects_debug d b : quiet (expects_debug d b). Proof. destruct d; [apply quiet_expects|apply quiet_ret]. Qed.
Lemma quiet_mk {O : ordty} (l u : O) : quiet (mk l u). Proof. unfold mk. apply quiet_bind; [apply quiet_expects|intros; apply quiet_ret]. Qed.
Lemma check_af (c d : outcome bool) : quiet c -> agrees_or_fails (check true c) (check false d).
Proof. intros [[b ->]| ->]; [|apply af_fail]. destruct b; [apply af_refl|apply af_fail]. Qed.

Section Blend.
  Context {N : num} {M : math N} (H : fp_math N M).
  Implicit Types (a b f x y : arg N).
  Lemma quiet_nonneg x : quiet (always_nonneg true x).
  Proof. unfold always_nonneg, rel_geq, rel_pre. destruct x; [apply quiet_ret|]. apply quiet_bind; [|intros; apply quiet_ret]. apply quiet_bind; [apply quiet_expects_debug|intros; apply quiet_ret]. Qed.
  Lemma quiet_iadd x y : quiet (iadd true x y).
  Proof.
    destruct (fp_math_denotes N M H) as (rd & phi & D & _). unfold iadd, nan_interval. apply quiet_bind; [apply quiet_expects_debug|intros _].
    destruct (_ && _); [apply quiet_mk|]. destruct (total_add D (alower x) (alower y)) as (l & ->). destruct (total_add D (aupper x) (aupper y)) as (u & ->). apply quiet_mk.
  Qed.
  Lemma quiet_positive x y : quiet (always_positive_sum true x y).
  Proof.
    destruct (fp_math_denotes N M H) as (rd & phi & D & _).
    assert (G : quiet (s <- iadd true x y ;; c <- rel_gt true (Iv s) (Sc n_zero) ;; Ret (always c))).
    { apply quiet_bind; [apply quiet_iadd|]. intros s. unfold rel_gt, rel_pre. apply quiet_bind; [|intros; apply quiet_ret]. apply quiet_bind; [apply quiet_expects_debug|intros; apply quiet_ret]. }
    unfold always_positive_sum. destruct x as [u|X], y as [v|Y]; try exact G. destruct (total_add D u v) as (s & ->). apply quiet_ret.
  Qed.
  Lemma quiet_fraction f : quiet (always_fraction true f).
  Proof.
    unfold always_fraction, rel_geq, rel_leq, rel_pre. destruct f; [apply quiet_ret|]. apply quiet_bind; [|intros]; [apply quiet_bind; [apply quiet_expects_debug|intros; apply quiet_ret]|].
    apply quiet_bind; [|intros; apply quiet_ret]. apply quiet_bind; [apply quiet_expects_debug|intros; apply quiet_ret].
  Qed.
  Lemma af_iweights a b : agrees_or_fails (iweights true a b) (iweights false a b).
  Proof.
    unfold iweights. apply af_bind; [apply af_expects|intros _]. apply af_bind; [apply check_af, quiet_nonneg|intros _]. apply af_bind; [apply check_af, quiet_nonneg|intros _].
    apply af_bind; [apply check_af, quiet_positive|intros _]. apply af_refl.
  Qed.
  Lemma af_blend_fractions f x y : agrees_or_fails (iblend_fractions true f x y) (iblend_fractions false f x y).
  Proof. unfold iblend_fractions. apply af_bind; [apply af_expects|intros _]. apply af_bind; [apply check_af, quiet_fraction|intros _]. apply af_refl. Qed.
  Lemma af_blend_linear a b x y : agrees_or_fails (iblend_linear true a b x y) (iblend_linear false a b x y).
  Proof.
    unfold iblend_linear. apply af_bind; [apply af_expects|intros _]. apply af_bind; [apply check_af, quiet_nonneg|intros _]. apply af_bind; [apply check_af, quiet_nonneg|intros _].
    apply af_bind; [apply check_af, quiet_positive|intros _]. repeat (apply af_bind; [apply af_refl|intros ?]). apply af_blend_fractions.
  Qed.
End Blend.

(** ** Unassigned operands *)
Lemma unassigned_iff {O : ordty} (a : arg O) : unassigned a <-> aassigned a = false.
Proof.
  unfold unassigned. destruct a as [v|X]; cbn; split; [intros (X & E & _); discriminate E|discriminate|intros (Y & E & K)|intros K].
  - injection E as <-. unfold assigned. now rewrite K.
  - exists X. split; [reflexivity|]. now apply negb_false_iff.
Qed.
Lemma either_unassigned {O O' : ordty} (a : arg O) (b : arg O') : unassigned a \/ unassigned b -> aassigned a && aassigned b = false.
Proof. rewrite !unassigned_iff. intros [->| ->]; [reflexivity|apply andb_false_r]. Qed.
Ltac rejected H := rewrite H; reflexivity.

Section Reject.
  Context {O : ordty}.
  Implicit Types (X : ivl O) (x y : arg O).
  Lemma ua_ivl X : unassigned (Iv X) -> assigned X = false. Proof. intros H. now apply unassigned_iff in H. Qed.
  Lemma rj_bounds X : unassigned (Iv X) -> lower true X = FailFast /\ upper true X = FailFast /\ iprint true X = FailFast.
  Proof. intros H%ua_ivl. unfold lower, upper, iprint. rewrite H. repeat split. Qed.
  Lemma rj_extrema x : unassigned x -> infimum true x = FailFast /\ supremum true x = FailFast.
  Proof. intros H%unassigned_iff. unfold infimum, supremum. rewrite H. split; reflexivity. Qed.
  Lemma rj_relations x y : unassigned x \/ unassigned y ->
    rel_eq true x y = FailFast /\ rel_neq true x y = FailFast /\ rel_lt true x y = FailFast /\ rel_leq true x y = FailFast /\ rel_gt true x y = FailFast /\ rel_geq true x y = FailFast
    /\ imin true x y = FailFast /\ imax true x y = FailFast.
  Proof. intros H%either_unassigned. unfold rel_eq, rel_neq, rel_lt, rel_leq, rel_gt, rel_geq, rel_pre, imin, imax. rewrite H. repeat split. Qed.
End Reject.
Section RejectArith.
  Context {N : num}.
  Implicit Types (X : ivl N) (x y : arg N).
  Lemma rj_arith x y : unassigned x \/ unassigned y -> iadd true x y = FailFast /\ isub true x y = FailFast /\ imul true x y = FailFast /\ idiv true x y = FailFast.
  Proof. intros H%either_unassigned. unfold iadd, isub, imul, idiv. rewrite H. repeat split. Qed.
  Lemma rj_unary X : unassigned (Iv X) -> iplus true X = FailFast /\ ineg true X = FailFast /\ isquare true X = FailFast /\ icube true X = FailFast /\ iabs true X = FailFast /\ isgn true X = FailFast.
  Proof. intros H%ua_ivl. unfold iplus, ineg, isquare, icube, iabs, isgn. rewrite H. repeat split. Qed.
  Lemma rj_math (M : math N) X : unassigned (Iv X) ->
    isqrt M true X = FailFast /\ icbrt M true X = FailFast /\ ilog M true X = FailFast /\ iexp M true X = FailFast /\ iacos M true X = FailFast /\ iasin M true X = FailFast /\ iatan M true X = FailFast
    /\ icos M true X = FailFast /\ itan M true X = FailFast /\ ifloor M true X = FailFast /\ iceil M true X = FailFast /\ iround M true X = FailFast /\ ifrac M true X = FailFast
    /\ iisinf true X = FailFast /\ iisfinite true X = FailFast /\ iisnan true X = FailFast.
  Proof.
    intros H%ua_ivl. unfold isqrt, icbrt, ilog, iexp, iacos, iasin, iatan, icos, itan, ifloor, iceil, iround, ifrac, iisfinite, iisinf, iisnan. rewrite H. repeat split.
  Qed.
  Lemma rj_sin (M : math N) X : fp_math N M -> unassigned (Iv X) -> isin M true X = FailFast.
  Proof.
    intros HM H. destruct (fp_math_denotes N M HM) as (rd & phi & D & _). unfold isin. destruct (d_div _ _ _ D (m_pi M) (m_of_Z M 2)) as (h & -> & _). cbn [bind].
    unfold isub. rewrite (either_unassigned (Iv X) (Sc h)) by auto. reflexivity.
  Qed.
  Lemma rj_math2 (M : math N) x y : unassigned x \/ unassigned y -> ipow M true x y = FailFast /\ iatan2 M true x y = FailFast /\ iweights true x y = FailFast.
  Proof. intros H%either_unassigned. unfold ipow, iatan2, iweights. rewrite H. repeat split. Qed.
  Lemma rj_blend (a b x y : arg N) : (unassigned a \/ unassigned x \/ unassigned y -> iblend_fractions true a x y = FailFast)
    /\ (unassigned a \/ unassigned b \/ unassigned x \/ unassigned y -> iblend_linear true a b x y = FailFast).
  Proof.
    rewrite !unassigned_iff. unfold iblend_fractions, iblend_linear. split.
    - intros [H|[H|H]]; rewrite H, ?andb_false_l, ?andb_false_r; reflexivity.
    - intros [H|[H|[H|H]]]; rewrite H, ?andb_false_l, ?andb_false_r; reflexivity.
  Qed.
End RejectArith.
Section RejectIter.
  Context {n w : Z}.
  Implicit Types (a b : arg (iter_ordty n)) (d : arg (int_ordty w)).
  Lemma rj_iter a d : unassigned a \/ unassigned d -> it_add true a d = FailFast /\ it_add_rev true d a = FailFast /\ it_sub true a d = FailFast.
  Proof. intros H. unfold it_add, it_add_rev, it_sub. rewrite (either_unassigned a d H), (either_unassigned d a) by tauto. repeat split. Qed.
  Lemma rj_iter_diff a b : unassigned a \/ unassigned b -> @it_diff n w true a b = FailFast.
  Proof. intros H. unfold it_diff. rewrite (either_unassigned a b H). reflexivity. Qed.
  (** in all builds *)
  Lemma it_copy_spec (X : ivl (iter_ordty n)) : (unassigned (Iv X) -> it_copy X = FailFast) /\ (~ unassigned (Iv X) -> it_copy X = Ret X).
  Proof.
    split; intros H.
    - apply ua_ivl in H. unfold it_copy. now rewrite H.
    - rewrite unassigned_iff in H. cbn in H. unfold it_copy. apply not_false_iff_true in H. rewrite H. now destruct X.
  Qed.
End RejectIter.
Section RejectSets.
  Context {E : enum_type}.
  Implicit Types (s t : vset E).
  Lemma rj_sets s t : wf_set s -> wf_set t -> (forall v, ~ member s v) \/ (forall v, ~ member t v) -> set_eq true s t = FailFast /\ set_neq true s t = FailFast.
  Proof. intros Ws Wt [H|H]; apply empty_iff in H; auto; unfold set_eq, set_neq; rewrite H, ?andb_false_l, ?andb_false_r; split; reflexivity. Qed.
  Lemma rj_set1 s t : wf_set t -> (forall v, ~ member t v) -> set_assign true s t = FailFast /\ set_value true t = FailFast.
  Proof. intros W H. apply empty_iff in H; auto. unfold set_assign, set_value. rewrite H. split; reflexivity. Qed.
  Lemma rj_bnot (x : bset) : wf_set x -> (forall v, ~ member x v) -> bnot true x = FailFast.
  Proof. intros W H. apply empty_iff in H; auto. unfold bnot. rewrite H. reflexivity. Qed.
End RejectSets.
Lemma scalar_constrain_spec {A} (x : A) (c : bool) : scalar_constrain x c = if c then Ret x else FailFast.
Proof. destruct c; reflexivity. Qed.
