(** The functions of FloatMath.v computed on the denoted real numbers. *)
From Coq Require Import Reals ZArith Bool Lra Lia.
From Flocq Require Import Core Digits BinarySingleNaN.
From Verif Require Import Outcome SetModel Spec Num NumLaws IntervalModel IvlSpec IvlProofs IntNum FloatNum XReal RealNum FloatProofs
  MathModel FloatMath RealMath MathSpec MathProofs.
Open Scope R_scope.

Section FloatMath.
  Variables (prec emax : Z) (Hp : Prec_gt_0 prec) (He : Prec_lt_emax prec emax).
  Existing Instance Hp.
  Existing Instance He.
  Notation F := (binary_float prec emax).
  Notation fexp := (SpecFloat.fexp prec emax).
  Notation emin := (SpecFloat.emin prec emax).
  Notation rnd := (round radix2 fexp ZnearestE).
  Notation f2x := (f2x prec emax).
  Notation rd := (rd prec emax).
  Implicit Types (x y : F).

  Lemma nearbyint_x md x : f2x (Bnearbyint md x) = xfun (fun r => IZR (round_mode md r)) (f2x x).
  Proof.
    destruct (is_finite x) eqn:Hx.
    - destruct (Bnearbyint_correct prec emax He md x) as (H1 & H2 & _). rewrite (f2x_finite _ _ _ Hx), f2x_finite by (rewrite H2; exact Hx).
      cbn. now rewrite H1, round_FIX_IZR.
    - destruct x as [|[|]| |]; try discriminate; reflexivity.
  Qed.
  Lemma sqrt_x x : Bleb (B754_zero false) x = true -> f2x (Bsqrt mode_NE x) = xround rd (xfun sqrt (f2x x)).
  Proof.
    intros H. destruct x as [s|[|]| |s m e B]; try discriminate H; try reflexivity.
    - cbn. rewrite sqrt_0. symmetry. apply rd_0.
    - destruct s; [discriminate H|]. set (x := B754_finite false m e B). destruct (Bsqrt_correct prec emax Hp He mode_NE x) as (H1 & H2 & _).
      rewrite (f2x_finite _ _ x eq_refl), f2x_finite by (rewrite H2; reflexivity). cbn [xfun xround]. unfold FloatProofs.rd. cbn [round_mode] in H1.
      rewrite Rlt_bool_true; [now rewrite H1|]. rewrite <- H1. apply abs_B2R_lt_emax.
  Qed.
  Lemma rd_1 : rd 1 = XFin 1.
  Proof. pose proof (rd_id prec emax Bone) as H. now rewrite one_x in H. Qed.

  Lemma float_mdenotes L : mdenotes (float_denotes prec emax Hp He) (float_math prec emax Hp He L).
  Proof.
    constructor; cbn.
    - apply (nearbyint_x mode_DN). - apply (nearbyint_x mode_UP). - apply (nearbyint_x mode_NA).
    - apply sqrt_x.
    - apply rd_1.
  Qed.

  (** fmod is exact *)
  Lemma bounded_bounds m e : SpecFloat.bounded prec emax m e = true -> (Zpos m < 2 ^ prec /\ emin <= e)%Z.
  Proof.
    unfold SpecFloat.bounded, SpecFloat.canonical_mantissa. intros H. apply andb_true_iff in H as [H _]. apply Zeq_bool_eq in H.
    unfold SpecFloat.fexp in H. rewrite Zpos_digits2_pos in H.
    assert (D : (Zdigits radix2 (Zpos m) <= prec)%Z) by lia. split; [|lia].
    destruct (Zdigits_correct radix2 (Zpos m)) as [_ U]. change (Z.abs (Z.pos m)) with (Z.pos m) in U.
    eapply Z.lt_le_trans; [exact U|]. apply (Zpower_le radix2). exact D.
  Qed.
  Lemma fmod_x x y : is_finite x = true -> is_finite y = true -> B2R y <> 0 -> is_finite (Bfmod prec emax Hp He x y) = true /\
    B2R (Bfmod prec emax Hp He x y) = Rfmod (B2R x) (B2R y).
  Proof.
    intros Hx Hy Ny. destruct y as [sy|sy| |sy my ey By]; try discriminate Hy; [cbn in Ny; contradiction|].
    destruct x as [sx|sx| |sx mx ex Bx]; try discriminate Hx.
    { split; [reflexivity|]. cbn. unfold Rfmod. unfold Rdiv. rewrite Rmult_0_l, (Ztrunc_IZR 0). ring. }
    cbn [Bfmod]. set (e := Z.min ex ey). set (X := cond_Zopp sx (Zpos mx * 2 ^ (ex - e))). set (Y := (Zpos my * 2 ^ (ey - e))%Z).
    assert (E1 : (0 <= ex - e)%Z) by (unfold e; lia). assert (E2 : (0 <= ey - e)%Z) by (unfold e; lia).
    assert (PY : (0 < Y)%Z) by (unfold Y; apply Z.mul_pos_pos; [reflexivity|apply Z.pow_pos_nonneg; [reflexivity|auto]]).
    assert (Pw : forall k, (0 <= k - e)%Z -> IZR (2 ^ (k - e)) * bpow radix2 e = bpow radix2 k).
    { intros k Hk. change 2%Z with (radix_val radix2). rewrite IZR_Zpower by auto. rewrite <- bpow_plus. f_equal. ring. }
    assert (RX : B2R (B754_finite sx mx ex Bx) = IZR X * bpow radix2 e).
    { cbn [B2R]. unfold X, F2R. cbn [Fnum Fexp]. destruct sx; cbn [cond_Zopp].
      - rewrite !opp_IZR, mult_IZR, <- (Pw ex E1). rewrite ?opp_IZR. ring.
      - rewrite mult_IZR, <- (Pw ex E1). ring. }
    assert (RY : B2R (B754_finite sy my ey By) = IZR (cond_Zopp sy Y) * bpow radix2 e).
    { cbn [B2R]. unfold Y, F2R. cbn [Fnum Fexp]. destruct sy; cbn [cond_Zopp].
      - rewrite !opp_IZR, mult_IZR, <- (Pw ey E2). rewrite ?opp_IZR. ring.
      - rewrite mult_IZR, <- (Pw ey E2). ring. }
    pose proof (bpow_gt_0 radix2 e) as Pe.
    set (Y' := cond_Zopp sy Y) in *. assert (NY : Y' <> 0%Z) by (unfold Y'; destruct sy; cbn [cond_Zopp]; lia).
    assert (Er : Z.rem X Y = Z.rem X Y') by (unfold Y'; destruct sy; cbn [cond_Zopp]; auto; symmetry; apply Z.rem_opp_r; clear - PY; lia).
    assert (RF : Rfmod (B2R (B754_finite sx mx ex Bx)) (B2R (B754_finite sy my ey By)) = F2R (Float radix2 (Z.rem X Y) e)).
    { rewrite RX, RY. unfold Rfmod. replace (IZR X * bpow radix2 e / (IZR Y' * bpow radix2 e)) with (IZR X / IZR Y') by (field; split; [lra|now apply IZR_neq]).
      rewrite Ztrunc_div by exact NY. unfold F2R. cbn [Fnum Fexp]. rewrite Er, Z.rem_eq by exact NY. rewrite minus_IZR, mult_IZR. ring. }
    rewrite RF.
    assert (A1 : (Z.abs (Z.rem X Y) < Y)%Z) by (rewrite <- (Z.abs_eq Y) at 2 by lia; apply Z.rem_bound_abs; lia).
    assert (A2 : (Z.abs (Z.rem X Y) <= Z.abs X)%Z).
    { rewrite <- (Z.rem_abs_l X Y) by lia. apply Z.rem_le; lia. }
    destruct (bounded_bounds _ _ Bx) as [Bx1 Bx2]. destruct (bounded_bounds _ _ By) as [By1 By2].
    assert (G : generic_format radix2 fexp (F2R (Float radix2 (Z.rem X Y) e))).
    { apply (generic_format_FLT radix2 emin prec). exists (Float radix2 (Z.rem X Y) e); [reflexivity| |]; cbn.
      - destruct (Z.min_spec ex ey) as [[_ M]|[_ M]]; fold e in M.
        + eapply Z.le_lt_trans; [exact A2|]. unfold X. rewrite abs_cond_Zopp, M, Z.sub_diag, Z.mul_1_r. exact Bx1.
        + eapply Z.lt_trans; [exact A1|]. unfold Y. rewrite M, Z.sub_diag, Z.mul_1_r. exact By1.
      - unfold e. lia. }
    pose proof (binary_normalize_correct prec emax Hp He mode_NE (Z.rem X Y) e sx) as C. cbv zeta in C. cbn [round_mode] in C.
    rewrite round_generic in C by (auto with typeclass_instances). rewrite Rlt_bool_true in C.
    - destruct C as (C1 & C2 & _). auto.
    - eapply Rle_lt_trans; [|apply (abs_B2R_lt_emax prec emax (B754_finite sx mx ex Bx))]. rewrite RX. unfold F2R. cbn [Fnum Fexp].
      rewrite !Rabs_mult, <- !abs_IZR. apply Rmult_le_compat_r; [apply Rabs_pos|]. apply IZR_le. exact A2.
  Qed.
End FloatMath.

Lemma fp_math_denotes N M : fp_math N M -> exists rd phi (D : denotes N rd phi), mdenotes D M.
Proof.
  intros [prec emax Hp He L|].
  - exists (rd prec emax), (f2x prec emax), (float_denotes prec emax Hp He). apply float_mdenotes.
  - exists XFin, (fun a => a), real_denotes. apply real_mdenotes.
Qed.
Lemma fp_laws N M : fp_math N M -> num_laws N.
Proof. intros [prec emax Hp He L|]; [apply float_laws|apply real_laws]. Qed.
