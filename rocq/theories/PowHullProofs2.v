(** C77: the theorems about pow for the floating-point types; which exponents are integers. *)
From Coq Require Import Reals ZArith Bool Lra Lia.
From Flocq Require Import Core BinarySingleNaN.
From Verif Require Import Outcome Num NumLaws IntervalModel IvlSpec IvlProofs IntNum FloatNum XReal RealNum
  MathModel FloatMath RealMath MathSpec FloatMathProofs PowProofs PowProofs2 FloatProofs SinMachineProofs PowLibProofs PowHullSpec PowHullProofs.
Open Scope Z_scope.

Lemma fp_float N M : fp_math N M -> n_float N = true. Proof. now intros []. Qed.
Lemma fp_trunc N M : fp_math N M -> forall v : N, m_trunc M v = UB \/ exists n, m_trunc M v = Ret n.
Proof.
  intros [prec emax Hp He L|] v; cbn [m_trunc float_math real_math].
  - unfold to_long_long. destruct (_ && _); eauto.
  - destruct v; auto. destruct in_range; eauto.
Qed.

Section Types.
  Variables (N : num) (M : math N).
  Hypothesis H : fp_math N M.
  Hypothesis (IL : increasing nonneg (m_log M)) (IE : increasing anywhere (m_exp M)).
  Let HN := fp_laws N M H.
  Let HF := fp_float N M H.
  Lemma fp_pow_nonneg dbg (x y : arg N) : aproper x -> aproper y -> nonneg (alower x) -> exists Z, ipow M dbg x y = Ret Z /\ is_hull (nonneg_powers M x y) Z.
  Proof. exact (ipow_nonneg HN HF M IL IE dbg x y). Qed.
  Lemma fp_pow_integer dbg (x y : arg N) n : aproper x -> o_lt (alower x) n_zero = true -> is_integer M n y ->
    exists Z, ipow M dbg x y = Ret Z /\ is_hull (fun v => nonneg_powers M x y v \/ nonpos_powers M n x y v) Z.
  Proof. exact (ipow_integer HN HF M IL IE dbg x y n). Qed.
  Lemma fp_pow_other dbg (x y : arg N) : aproper x -> aproper y -> o_lt (alower x) n_zero = true -> (forall n, ~ is_integer M n y) ->
    (m_trunc M (alower y) = UB /\ ipow M dbg x y = UB) \/ exists Z, ipow M dbg x y = Ret Z /\ nan_ivl Z.
  Proof.
    intros Px Py Hl NI. destruct (fp_trunc N M H (alower y)) as [E|(n & E)]; [left|right].
    - split; [exact E|]. exact (ipow_ub HN HF M IL IE dbg x y Px Py Hl E).
    - exact (ipow_not_integer HN HF M IL IE dbg x y n Px Py Hl E (NI n)).
  Qed.
  Hypothesis E0 : forall e : N, is_zero e -> o_eq (m_exp M e) n_one = true.
  Lemma fp_pow_zero dbg (x y : arg N) : aproper x -> is_zero (alower y) -> is_zero (aupper y) -> nonneg (alower x) \/ (o_lt (alower x) n_zero = true /\ is_integer M 0 y) ->
    exists Z, ipow M dbg x y = Ret Z /\ o_eq (lo Z) n_one = true /\ o_eq (hi Z) n_one = true.
  Proof. exact (ipow_zero HN HF M IL IE dbg E0 x y). Qed.
  Lemma fp_pow_one dbg (x y : arg N) : o_eq (alower x) n_one = true -> o_eq (aupper x) n_one = true -> aproper y -> is_zero (m_log M n_one) ->
    exists Z, ipow M dbg x y = Ret Z /\ o_eq (lo Z) n_one = true /\ o_eq (hi Z) n_one = true.
  Proof. exact (ipow_one HN HF M IL IE dbg E0 x y). Qed.
End Types.

Section Integers.
  Variables (prec emax : Z) (Hp : Prec_gt_0 prec) (He : Prec_lt_emax prec emax).
  Existing Instance Hp.
  Existing Instance He.
  Notation N := (float_num prec emax Hp He).
  Variable L : libm (binary_float prec emax).
  Notation M := (float_math prec emax Hp He L).

  Lemma integer_exponents (n : Z) (y : arg N) : is_integer M n y <-> o_eq (alower y) (aupper y) = true /\ is_finite (alower y : binary_float prec emax) = true
    /\ B2R (alower y : binary_float prec emax) = IZR n /\ - 2 ^ 63 <= n < 2 ^ 63.
  Proof.
    unfold is_integer. set (v := alower y : binary_float prec emax). split.
    - intros (E & T & Z). split; [exact E|]. cbn [m_trunc float_math] in T. unfold to_long_long in T. fold v in T. destruct (is_finite v) eqn:F; [|discriminate].
      destruct (in_range 64 (Btrunc v)) eqn:R; [|discriminate]. injection T as T. split; [reflexivity|].
      destruct (of_integer prec emax Hp He L n v F Z) as (m & Em). rewrite T in R. apply in_range_long in R. split; [|exact R].
      change (B2R v = IZR m) in Em. assert (m = n) as <-; [|exact Em].
      transitivity (Ztrunc (B2R v)); [symmetry; rewrite <- (Ztrunc_IZR m); f_equal; exact Em|]. transitivity (Btrunc v); [symmetry; apply Btrunc_Ztrunc; assumption|exact T].
    - intros (E & F & B & R). split; [exact E|]. assert (T : Btrunc v = n) by (transitivity (Ztrunc (B2R v)); [apply Btrunc_Ztrunc; assumption|rewrite <- (Ztrunc_IZR n); f_equal; exact B]).
      split; [cbn [m_trunc float_math]; unfold to_long_long; fold v; rewrite T; change (is_finite v = true) in F; rewrite F, (proj2 (in_range_long _) R); reflexivity|].
      cbn [m_of_Z float_math]. pose proof (binary_normalize_correct prec emax Hp He mode_NE n 0 false) as C. cbv zeta in C.
      replace (F2R (Float radix2 n 0)) with (IZR n) in C by (unfold F2R; cbn; ring). change (B2R v = IZR n) in B. rewrite <- B in C.
      rewrite round_generic in C; [|apply valid_rnd_round_mode|apply generic_format_B2R].
      rewrite Rlt_bool_true in C by apply abs_B2R_lt_emax. destruct C as (C1 & C2 & _).
      change (Beqb (binary_normalize prec emax Hp He mode_NE n 0 false) v = true). rewrite (Beqb_correct prec emax _ v C2 F), C1. now apply Req_bool_true.
  Qed.
End Integers.

(** the library that rounds correctly *)
Section Nearest.
  Variables (prec emax : Z) (Hp : Prec_gt_0 prec) (He : Prec_lt_emax prec emax).
  Existing Instance Hp.
  Existing Instance He.
  Notation FN := (float_num prec emax Hp He).
  Notation NM := (float_math prec emax Hp He (nearest_libm prec emax Hp He)).
  Let D := float_denotes prec emax Hp He.
  Lemma rd_one : rd prec emax 1 = XFin 1.
  Proof. pose proof (d_rd_id _ _ _ D n_one) as K. rewrite (d_one _ _ _ D) in K. exact K. Qed.
  Lemma nearest_exp_zero (e : FN) : is_zero e -> o_eq (m_exp NM e : FN) n_one = true.
  Proof.
    unfold is_zero. rewrite !(d_eq _ _ _ D), (d_zero _ _ _ D), (d_one _ _ _ D). intros H. apply xeq_iff in H as [H _]. apply xeq_iff.
    change (m_exp NM e) with (l_exp (nearest_libm prec emax Hp He) e). rewrite exp_x, H, exp_0, rd_one. split; [reflexivity|discriminate].
  Qed.
  Lemma nearest_log_one : is_zero (m_log NM n_one : FN).
  Proof.
    unfold is_zero. rewrite (d_eq _ _ _ D), (d_zero _ _ _ D). apply xeq_iff. change (m_log NM n_one) with (l_log (nearest_libm prec emax Hp He) (@n_one FN)).
    rewrite (log_x prec emax Hp He _ 1 (d_one _ _ _ D)) by lra. rewrite Rle_bool_false by lra. rewrite ln_1, (d_rd_0 _ _ _ D). split; [reflexivity|discriminate].
  Qed.
End Nearest.
