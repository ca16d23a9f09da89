(** Powers of negative bases in machine arithmetic: which exponents give NaN and which are undefined behaviour. *)
From Coq Require Import Reals ZArith Bool Lra Lia.
From Flocq Require Import Core BinarySingleNaN.
From Verif Require Import Outcome SetModel Spec Num NumLaws IntervalModel IvlSpec IvlProofs ArithProofs IntNum FloatNum XReal RealNum
  MathModel FloatMath RealMath MathSpec FloatMathProofs AlgoProofs PowProofs.
Open Scope Z_scope.

Section PowFloat.
  Variables (prec emax : Z) (Hp : Prec_gt_0 prec) (He : Prec_lt_emax prec emax).
  Existing Instance Hp.
  Existing Instance He.
  Notation N := (float_num prec emax Hp He).
  Variable L : libm (binary_float prec emax).
  Notation M := (float_math prec emax Hp He L).
  Let HN : num_laws N := fp_laws N M (fm_float prec emax Hp He L).
  Let HO := nl_ord N HN.

  Lemma negative_only dbg (x : arg N) : aproper x -> o_lt (aupper x) n_zero = true -> possibly_nonneg dbg x = Ret false /\ possibly_neg dbg x = Ret true.
  Proof.
    intros P H. destruct x as [v|X]; cbn [possibly_nonneg possibly_neg aupper alower] in *.
    - split; [f_equal|now rewrite H]. clear - HO H. ord HO.
    - assert (Z0 : aproper (Sc (n_zero : N))) by (cbn; clear - HO H; ord HO).
      unfold rel_geq, rel_lt. rewrite (rel_pre_ok HO dbg (Iv X) (Sc n_zero) P Z0). cbn [bind]. split; f_equal.
      + apply not_true_is_false. rewrite possibly_iff. destruct (compare_leq_exact HO (Sc n_zero) (Iv X) Z0 P) as [_ Q]. rewrite (Q true).
        intros (v & u & [Hv1 Hv2] & [Hu1 Hu2] & E). cbn [alower aupper] in *. clear - HO H Hu2 Hv1 E. ord HO.
      + apply possibly_iff. destruct (compare_lt_exact HO (Iv X) (Sc n_zero) P Z0) as [_ Q]. rewrite (Q true).
        exists (aupper (Iv X)), n_zero. split; [apply (ael_upper HO); exact P|]. split; [split; exact Z0|]. exact H.
  Qed.

  (** rounding an integer gives an integer *)
  Lemma round_integer n : exists m, round radix2 (FLT_exp (3 - emax - prec) prec) (round_mode mode_NE) (IZR n) = IZR m.
  Proof.
    unfold round. set (e := cexp radix2 (FLT_exp (3 - emax - prec) prec) (IZR n)).
    destruct (Z_le_gt_dec 0 e) as [G|G].
    - eexists. unfold F2R. cbn [Fnum Fexp]. rewrite <- (IZR_Zpower radix2 e G), <- mult_IZR. reflexivity.
    - exists n. change (F2R (Float radix2 (round_mode mode_NE (scaled_mantissa radix2 (FLT_exp (3 - emax - prec) prec) (IZR n))) e)) with (round radix2 (FLT_exp (3 - emax - prec) prec) (round_mode mode_NE) (IZR n)).
      apply round_generic; [apply valid_rnd_round_mode|]. replace (IZR n) with (F2R (Float radix2 n 0)) by (unfold F2R; cbn; ring). apply generic_format_F2R. intros _.
      replace (F2R (Float radix2 n 0)) with (IZR n) by (unfold F2R; cbn; ring). fold e. cbn. lia.
  Qed.
  Lemma of_integer n (v : N) : is_finite (v : binary_float prec emax) = true -> o_eq (m_of_Z M n) v = true -> exists m, B2R (v : binary_float prec emax) = IZR m.
  Proof.
    intros Hf E. pose proof (binary_normalize_correct prec emax Hp He mode_NE n 0 false) as C. cbv zeta in C.
    replace (F2R (Float radix2 n 0)) with (IZR n) in C by (unfold F2R; cbn; ring).
    cbn [m_of_Z float_math] in E. set (w := binary_normalize prec emax Hp He mode_NE n 0 false) in *.
    match type of C with if ?b then _ else _ => destruct b end.
    - destruct C as (C1 & C2 & _). destruct (round_integer n) as (m & Hm). exists m. rewrite <- Hm.
      change (Beqb w v = true) in E. pose proof (Beqb_correct prec emax w v C2 Hf) as Q. rewrite E in Q.
      symmetry in Q. revert Q. case Req_bool_spec; [intros <- _|discriminate]. exact C1.
    - exfalso. destruct w as [s|s| |s m e B], (v : binary_float prec emax) as [s'|s'| |s' m' e' B']; try discriminate Hf; try discriminate E; unfold binary_overflow in C; cbn in C; try discriminate C; destruct s; discriminate E.
  Qed.

  Lemma Btrunc_Ztrunc (v : binary_float prec emax) : Btrunc v = Ztrunc (B2R v).
  Proof.
    apply eq_IZR. rewrite (Btrunc_correct prec emax He v). unfold round, scaled_mantissa, cexp, FIX_exp, F2R. cbn [Fnum Fexp Z.opp bpow]. now rewrite !Rmult_1_r.
  Qed.
  Definition exponent_ok (v : N) := is_finite (v : binary_float prec emax) = true /\ - 2 ^ 63 <= Ztrunc (B2R (v : binary_float prec emax)) < 2 ^ 63.
  Lemma trunc_ok (v : N) : exponent_ok v -> exists n, m_trunc M v = Ret n.
  Proof.
    intros [H1 H2]. cbn [m_trunc float_math]. unfold to_long_long. rewrite H1, Btrunc_Ztrunc, (proj2 (in_range_long _) H2). cbn. eauto.
  Qed.
  Lemma trunc_ub (v : N) : ~ exponent_ok v -> m_trunc M v = UB.
  Proof.
    intros H. cbn [m_trunc float_math]. unfold to_long_long. destruct is_finite eqn:H1; [|reflexivity]. destruct in_range eqn:H2; [|reflexivity].
    exfalso. apply H. split; [exact H1|]. rewrite Btrunc_Ztrunc in H2. now apply in_range_long.
  Qed.

  Lemma pow_start dbg (x y : arg N) : aproper x -> aproper y -> o_lt (aupper x) n_zero = true ->
    (exponent_ok (alower y) -> (o_lt (alower y) (aupper y) = true \/ forall n : Z, B2R (alower y : binary_float prec emax) <> IZR n) -> exists Z, ipow M dbg x y = Ret Z /\ nan_ivl Z)
    /\ (~ exponent_ok (alower y) -> ipow M dbg x y = UB).
  Proof.
    intros Px Py H. destruct (negative_only dbg x Px H) as [E1 E2]. unfold ipow.
    rewrite (aproper_assigned HO x Px), (aproper_assigned HO y Py). cbn [andb]. replace (expects_debug dbg true) with (Ret tt) by (now destruct dbg). cbn [bind].
    rewrite E1, E2. cbn [bind]. split.
    - intros Hy Hn. destruct (trunc_ok _ Hy) as (n & ->). cbn [bind].
      replace (o_eq (alower y) (aupper y) && o_eq (m_of_Z M n) (alower y)) with false.
      + destruct (nan_interval_nan HN eq_refl) as (Z & HZ & Hz). rewrite HZ. eauto.
      + symmetry. apply andb_false_iff. destruct Hn as [Hn|Hn]; [left|right].
        * clear - HO Hn. ord HO.
        * apply not_true_is_false. intros E. destruct (of_integer n _ (proj1 Hy) E) as (m & Hm). exact (Hn m Hm).
    - intros Hy. now rewrite (trunc_ub _ Hy).
  Qed.
End PowFloat.
