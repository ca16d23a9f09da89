(** Debug checks of the operations with operands of different value types (C53, C54). *)
From Coq Require Import Bool List ZArith.
From Verif Require Import Outcome SetModel Num IntervalModel IntNum ConstrainModel CondSpec MathModel DebugProofs DebugProofs2 MixedModel MixedArithModel MixedBlendModel MixedPowModel XReal FloatNum MathSpec FloatMathProofs BlendProofs IvlWrap.

Lemma una {O : ordty} (x : arg O) : unassigned x -> aassigned x = false.
Proof. intros (X & -> & H). cbn. unfold assigned. now rewrite H. Qed.

Section Arith.
  Context {L R T : num} (cl : L -> T) (cr : R -> T).
  Implicit Types (x : arg L) (y : arg R).
  Lemma af_mixed_arith x y : agrees_or_fails (mixed_add cl cr true x y) (mixed_add cl cr false x y) /\ agrees_or_fails (mixed_sub cl cr true x y) (mixed_sub cl cr false x y)
    /\ agrees_or_fails (mixed_mul cl cr true x y) (mixed_mul cl cr false x y) /\ agrees_or_fails (mixed_div cl cr true x y) (mixed_div cl cr false x y).
  Proof. unfold mixed_add, mixed_sub, mixed_mul, mixed_div. repeat split; af. Qed.
  Lemma af_mixed_rel x y : agrees_or_fails (mixed_eq cl cr true x y) (mixed_eq cl cr false x y) /\ agrees_or_fails (mixed_neq cl cr true x y) (mixed_neq cl cr false x y)
    /\ agrees_or_fails (mixed_lt cl cr true x y) (mixed_lt cl cr false x y) /\ agrees_or_fails (mixed_leq cl cr true x y) (mixed_leq cl cr false x y).
  Proof. unfold mixed_eq, mixed_neq, mixed_lt, mixed_leq, mixed_pre. repeat split; af. Qed.
  Lemma rj_mixed x y : unassigned x \/ unassigned y -> mixed_add cl cr true x y = FailFast /\ mixed_sub cl cr true x y = FailFast /\ mixed_mul cl cr true x y = FailFast /\ mixed_div cl cr true x y = FailFast
    /\ mixed_eq cl cr true x y = FailFast /\ mixed_neq cl cr true x y = FailFast /\ mixed_lt cl cr true x y = FailFast /\ mixed_leq cl cr true x y = FailFast /\ mixed_weights cl cr true x y = FailFast.
  Proof.
    intros H. assert (E : aassigned x && aassigned y = false) by (destruct H as [H|H]; rewrite (una _ H); [reflexivity|apply andb_false_r]).
    unfold mixed_add, mixed_sub, mixed_mul, mixed_div, mixed_eq, mixed_neq, mixed_lt, mixed_leq, mixed_weights, mixed_pre. rewrite E. repeat split.
  Qed.
  Lemma quiet_mixed_sum M x y : fp_math T M -> quiet (mixed_positive_sum cl cr true x y).
  Proof.
    intros H. destruct (fp_math_denotes T M H) as (rd & phi & D & _).
    assert (A : quiet (mixed_add cl cr true x y)).
    { unfold mixed_add, nan_interval, lift. apply quiet_bind; [apply quiet_expects_debug|intros _]. destruct (_ && _); [apply quiet_mk|].
      destruct (total_add D (cl (alower x)) (cr (alower y))) as (l & ->). destruct (total_add D (cl (aupper x)) (cr (aupper y))) as (u & ->). apply quiet_mk. }
    assert (G : quiet (s <- mixed_add cl cr true x y ;; p <- rel_gt true (Iv s) (Sc n_zero) ;; Ret (always p))).
    { apply quiet_bind; [exact A|]. intros s. unfold rel_gt, rel_pre. apply quiet_bind; [|intros; apply quiet_ret]. apply quiet_bind; [apply quiet_expects_debug|intros; apply quiet_ret]. }
    unfold mixed_positive_sum. destruct x as [u|X], y as [v|Y]; try exact G. unfold lift. destruct (total_add D (cl u) (cr v)) as (s & ->). apply quiet_ret.
  Qed.
  Lemma af_mixed_weights M x y : fp_math T M -> agrees_or_fails (mixed_weights cl cr true x y) (mixed_weights cl cr false x y).
  Proof.
    intros H. unfold mixed_weights. apply af_bind; [apply af_expects|intros _]. do 2 (apply af_bind; [apply check_af, quiet_nonneg|intros _]).
    apply af_bind; [apply check_af; now apply quiet_mixed_sum with M|intros _]. apply af_refl.
  Qed.
End Arith.
Section Constrain.
  Context {O I : ordty} (conv : I -> O).
  Lemma af_mixed_constrain R left X (y : arg I) : agrees_or_fails (mixed_constrain conv true R left X y) (mixed_constrain conv false R left X y).
  Proof. unfold mixed_constrain, mixed_below, mixed_above. apply af_bind; [af|intros]. cbv zeta. destruct R, left; af. Qed.
  Lemma rj_mixed_constrain R left X (y : arg I) : unassigned (Iv X) \/ unassigned y -> mixed_constrain conv true R left X y = FailFast.
  Proof.
    intros H. assert (E : assigned X && aassigned y = false) by (destruct H as [H|H]; [now rewrite (una _ H : assigned X = false)|rewrite (una _ H); apply andb_false_r]).
    unfold mixed_constrain. now rewrite E.
  Qed.
End Constrain.
Section Blend.
  Context {W T : num} (c : W -> T).
  Implicit Types (f a b : arg W) (x y : arg T).
  Lemma af_mixed_fractions f x y : agrees_or_fails (mixed_blend_fractions c true f x y) (mixed_blend_fractions c false f x y).
  Proof. unfold mixed_blend_fractions. apply af_bind; [apply af_expects|intros _]. apply af_bind; [apply check_af, quiet_fraction|intros _]. apply af_refl. Qed.
  Lemma af_mixed_linear M a b x y : fp_math W M -> agrees_or_fails (mixed_blend_linear c true a b x y) (mixed_blend_linear c false a b x y).
  Proof.
    intros H. unfold mixed_blend_linear. apply af_bind; [apply af_expects|intros _]. do 2 (apply af_bind; [apply check_af, quiet_nonneg|intros _]).
    apply af_bind; [apply check_af; now apply (quiet_positive H)|intros _]. repeat (apply af_bind; [apply af_refl|intros ?]). apply af_mixed_fractions.
  Qed.
  Lemma rj_mixed_blend a b x y : (unassigned a \/ unassigned x \/ unassigned y -> mixed_blend_fractions c true a x y = FailFast)
    /\ (unassigned a \/ unassigned b \/ unassigned x \/ unassigned y -> mixed_blend_linear c true a b x y = FailFast).
  Proof.
    unfold mixed_blend_fractions, mixed_blend_linear. split.
    - intros [H|[H|H]]; rewrite (una _ H); rewrite ?andb_false_r; reflexivity.
    - intros [H|[H|[H|H]]]; rewrite (una _ H); rewrite ?andb_false_r; reflexivity.
  Qed.
End Blend.
Section Pow.
  Context {w : Z} {Hw : (2 <= w)%Z} {N : num} (M : math N) (c : int_num w Hw -> N).
  Lemma af_mixed_pow x y : agrees_or_fails (mixed_pow M c true x y) (mixed_pow M c false x y).
  Proof. unfold mixed_pow. af; first [apply af_pnn|apply af_pn|apply af_amax0|apply af_aneg|apply af_alog|apply af_aexp|apply af_asign|idtac]. Qed.
  Lemma rj_mixed_pow x (y : arg (int_num w Hw)) : unassigned x \/ unassigned y -> mixed_pow M c true x y = FailFast.
  Proof. intros [H|H]; unfold mixed_pow; rewrite (una _ H); rewrite ?andb_false_r; reflexivity. Qed.
End Pow.

(** The debug check of the sum of integer weights may overflow where the release build, which divides, does not. *)
Lemma mixed_linear_debug_ub : exists (a b : arg int32) (x y : arg float64), mixed_blend_linear int_to_double true a b x y = UB /\ exists Z, mixed_blend_linear int_to_double false a b x y = Ret Z.
Proof.
  exists (Sc (i32 2147483647)), (Sc (i32 2147483647)), (Sc (f64 1 0)), (Sc (f64 2 0)). split; [vm_compute; reflexivity|]. destruct (ret_witness (mixed_blend_linear int_to_double false (Sc (i32 2147483647)) (Sc (i32 2147483647)) (Sc (f64 1 0)) (Sc (f64 2 0))) (fun _ => true)) as (Z & E & _); [vm_compute; reflexivity|eauto].
Qed.
