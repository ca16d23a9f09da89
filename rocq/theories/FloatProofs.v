(** The laws of NumLaws.v for IEEE-754 numbers of any precision and exponent range. *)
From Coq Require Import ZArith Reals Bool Lra Psatz.
From Flocq Require Import Core BinarySingleNaN.
From Verif Require Import Outcome Num NumLaws XReal FloatNum.
Open Scope R_scope.

Section Float.
  Variables (prec emax : Z) (Hp : Prec_gt_0 prec) (He : Prec_lt_emax prec emax).
  Existing Instance Hp.
  Existing Instance He.
  Notation F := (binary_float prec emax).
  Notation fexp := (SpecFloat.fexp prec emax).
  Notation rnd := (round radix2 fexp ZnearestE).
  Implicit Types (x y : F).

  Local Instance fexp_valid : Valid_exp fexp.
  Proof. unfold SpecFloat.fexp. apply FLT_exp_valid. exact Hp. Qed.

  (** the extended real denoted by a floating-point number *)
  Definition f2x x : xr :=
    match x with
    | B754_zero _ => XFin 0
    | B754_infinity true => XNinf
    | B754_infinity false => XPinf
    | B754_nan => XNan
    | B754_finite _ _ _ _ => XFin (B2R x)
    end.
  Definition rd (r : R) : xr :=
    if Rlt_bool (Rabs (rnd r)) (bpow radix2 emax) then XFin (rnd r) else if Rlt_bool r 0 then XNinf else XPinf.

  Lemma f2x_finite x : is_finite x = true -> f2x x = XFin (B2R x).
  Proof. destruct x; cbn; try discriminate; auto. Qed.
  Lemma f2x_fin x r : f2x x = XFin r -> is_finite x = true /\ B2R x = r.
  Proof. destruct x as [s|[|]| |s m e H]; cbn; try discriminate; intros E; injection E as <-; auto. Qed.
  Lemma f2x_inf x s : B2SF x = SpecFloat.S754_infinity s -> f2x x = if s then XNinf else XPinf.
  Proof. destruct x; cbn; try discriminate. intros E. injection E as ->. now destruct s. Qed.

  Lemma bpow_emax : 0 < bpow radix2 emax. Proof. apply bpow_gt_0. Qed.
  Lemma rnd_0 : rnd 0 = 0. Proof. apply round_0. auto with typeclass_instances. Qed.
  Lemma rnd_le r s : r <= s -> rnd r <= rnd s. Proof. intros. apply round_le; auto with typeclass_instances. Qed.
  Lemma rd_0 : rd 0 = XFin 0.
  Proof. unfold rd. rewrite rnd_0, Rabs_R0, Rlt_bool_true; [reflexivity|apply bpow_emax]. Qed.
  Lemma rd_mono r s : r <= s -> xle (rd r) (rd s) = true.
  Proof.
    intros H. pose proof (rnd_le r s H) as Hr. pose proof bpow_emax as Hb. unfold rd.
    assert (Sg : forall t, (t < 0 -> rnd t <= 0) /\ (0 <= t -> 0 <= rnd t)).
    { intros t. split; intros; rewrite <- rnd_0; apply rnd_le; lra. }
    destruct (Sg r) as [R1 R2], (Sg s) as [S1 S2].
    destruct (Rlt_bool_spec (Rabs (rnd r)) (bpow radix2 emax)) as [A|A], (Rlt_bool_spec (Rabs (rnd s)) (bpow radix2 emax)) as [B|B];
      destruct (Rlt_bool_spec r 0), (Rlt_bool_spec s 0); cbn; auto; try (apply Rle_bool_true; auto); exfalso;
      try specialize (R1 ltac:(assumption)); try specialize (R2 ltac:(assumption)); try specialize (S1 ltac:(assumption)); try specialize (S2 ltac:(assumption)); try lra;
      unfold Rabs in *; repeat destruct Rcase_abs; lra.
  Qed.
  Lemma rd_id x : xround rd (f2x x) = f2x x.
  Proof.
    destruct (f2x x) as [| |r|] eqn:E; auto. apply f2x_fin in E as [Hf <-]. cbn. unfold rd.
    rewrite round_generic by (auto with typeclass_instances; apply generic_format_B2R).
    rewrite Rlt_bool_true; [reflexivity|]. apply abs_B2R_lt_emax.
  Qed.

  (** comparisons *)
  Lemma leb_xle x y : Bleb x y = xle (f2x x) (f2x y).
  Proof.
    destruct (is_finite x) eqn:Hx, (is_finite y) eqn:Hy.
    - rewrite Bleb_correct by auto. now rewrite !f2x_finite by auto.
    - destruct y as [|[|]| |]; try discriminate Hy; destruct x as [|[|]| |[|]]; try discriminate Hx; reflexivity.
    - destruct y as [|[|]| |[|]]; try discriminate Hy; destruct x as [|[|]| |]; try discriminate Hx; reflexivity.
    - destruct y as [|[|]| |]; try discriminate Hy; destruct x as [|[|]| |]; try discriminate Hx; reflexivity.
  Qed.
  Lemma ltb_xlt x y : Bltb x y = xlt (f2x x) (f2x y).
  Proof.
    destruct (is_finite x) eqn:Hx, (is_finite y) eqn:Hy.
    - rewrite Bltb_correct by auto. rewrite !f2x_finite by auto. unfold xlt. cbn.
      destruct (Rlt_bool_spec (B2R x) (B2R y)), (Rle_bool_spec (B2R x) (B2R y)), (Rle_bool_spec (B2R y) (B2R x)); cbn; auto; lra.
    - destruct y as [|[|]| |]; try discriminate Hy; destruct x as [|[|]| |[|]]; try discriminate Hx; reflexivity.
    - destruct y as [|[|]| |[|]]; try discriminate Hy; destruct x as [|[|]| |]; try discriminate Hx; reflexivity.
    - destruct y as [|[|]| |]; try discriminate Hy; destruct x as [|[|]| |]; try discriminate Hx; reflexivity.
  Qed.
  Lemma eqb_xeq x y : Beqb x y = xeq (f2x x) (f2x y).
  Proof.
    destruct (is_finite x) eqn:Hx, (is_finite y) eqn:Hy.
    - rewrite Beqb_correct by auto. rewrite !f2x_finite by auto. unfold xeq. cbn.
      destruct (Req_bool_spec (B2R x) (B2R y)), (Rle_bool_spec (B2R x) (B2R y)), (Rle_bool_spec (B2R y) (B2R x)); cbn; auto; lra.
    - destruct y as [|[|]| |]; try discriminate Hy; destruct x as [|[|]| |[|]]; try discriminate Hx; reflexivity.
    - destruct y as [|[|]| |[|]]; try discriminate Hy; destruct x as [|[|]| |]; try discriminate Hx; reflexivity.
    - destruct y as [|[|]| |]; try discriminate Hy; destruct x as [|[|]| |]; try discriminate Hx; reflexivity.
  Qed.

  (** operators *)
  Lemma opp_x x : f2x (Bopp x) = xopp (f2x x).
  Proof.
    destruct (is_finite x) eqn:Hx.
    - rewrite !f2x_finite by (rewrite ?is_finite_Bopp; auto). cbn. now rewrite B2R_Bopp.
    - destruct x as [|[|]| |]; try discriminate; reflexivity.
  Qed.
  Lemma abs_x x : f2x (Babs x) = xabs (f2x x).
  Proof.
    destruct (is_finite x) eqn:Hx.
    - rewrite !f2x_finite by (rewrite ?is_finite_Babs; auto). cbn. now rewrite B2R_Babs.
    - destruct x as [|[|]| |]; try discriminate; reflexivity.
  Qed.
  Lemma sign_neg x : is_finite x = true -> Bsign x = true -> B2R x <= 0.
  Proof. destruct x as [s|[|]| |s m e H]; cbn; try discriminate; [lra|]. intros _ ->. apply F2R_le_0. cbn. apply Pos2Z.neg_is_nonpos. Qed.
  Lemma sign_pos x : is_finite x = true -> Bsign x = false -> 0 <= B2R x.
  Proof. destruct x as [s|[|]| |s m e H]; cbn; try discriminate; [lra|]. intros _ ->. apply F2R_ge_0. cbn. apply Pos2Z.pos_is_nonneg. Qed.
  Lemma big_nonzero r : bpow radix2 emax <= Rabs (rnd r) -> r <> 0.
  Proof. intros H ->. rewrite rnd_0, Rabs_R0 in H. pose proof bpow_emax. lra. Qed.
  Lemma rd_big r : bpow radix2 emax <= Rabs (rnd r) -> rd r = if Rlt_bool r 0 then XNinf else XPinf.
  Proof. intros H. unfold rd. now rewrite Rlt_bool_false. Qed.
  Lemma overflow_ne s : binary_overflow prec emax mode_NE s = SpecFloat.S754_infinity s.
  Proof. reflexivity. Qed.

  Lemma plus_x x y : f2x (Bplus mode_NE x y) = xround rd (xadd (f2x x) (f2x y)).
  Proof.
    destruct (is_finite x) eqn:Hx, (is_finite y) eqn:Hy.
    - rewrite (f2x_finite x), (f2x_finite y) by auto. cbn. pose proof (Bplus_correct prec emax Hp He mode_NE x y Hx Hy) as H. cbn [round_mode] in H.
      destruct (Rlt_bool_spec (Rabs (rnd (B2R x + B2R y))) (bpow radix2 emax)) as [A|A].
      + destruct H as (H1 & H2 & _). rewrite f2x_finite by auto. rewrite H1. unfold rd. now rewrite Rlt_bool_true.
      + destruct H as [H1 H2]. rewrite overflow_ne in H1. rewrite (f2x_inf _ _ H1), (rd_big _ A). pose proof (big_nonzero _ A).
        destruct (Bsign x) eqn:Sx.
        * pose proof (sign_neg x Hx Sx). pose proof (sign_neg y Hy (eq_sym H2)). now rewrite Rlt_bool_true by lra.
        * pose proof (sign_pos x Hx Sx). pose proof (sign_pos y Hy (eq_sym H2)). now rewrite Rlt_bool_false by lra.
    - destruct y as [|[|]| |]; try discriminate Hy; destruct x as [|[|]| |[|]]; try discriminate Hx; reflexivity.
    - destruct y as [|[|]| |[|]]; try discriminate Hy; destruct x as [|[|]| |]; try discriminate Hx; reflexivity.
    - destruct y as [|[|]| |]; try discriminate Hy; destruct x as [|[|]| |]; try discriminate Hx; reflexivity.
  Qed.
  Lemma minus_x x y : f2x (Bminus mode_NE x y) = xround rd (xsub (f2x x) (f2x y)).
  Proof.
    destruct (is_finite x) eqn:Hx, (is_finite y) eqn:Hy.
    - rewrite (f2x_finite x), (f2x_finite y) by auto. cbn. pose proof (Bminus_correct prec emax Hp He mode_NE x y Hx Hy) as H. cbn [round_mode] in H.
      change (B2R x + - B2R y) with (B2R x - B2R y).
      destruct (Rlt_bool_spec (Rabs (rnd (B2R x - B2R y))) (bpow radix2 emax)) as [A|A].
      + destruct H as (H1 & H2 & _). rewrite f2x_finite by auto. rewrite H1. unfold rd. now rewrite Rlt_bool_true.
      + destruct H as [H1 H2]. rewrite overflow_ne in H1. rewrite (f2x_inf _ _ H1), (rd_big _ A). pose proof (big_nonzero _ A).
        destruct (Bsign x) eqn:Sx.
        * pose proof (sign_neg x Hx Sx). pose proof (sign_pos y Hy). destruct (Bsign y); try discriminate. specialize (H3 eq_refl). now rewrite Rlt_bool_true by lra.
        * pose proof (sign_pos x Hx Sx). pose proof (sign_neg y Hy). destruct (Bsign y); try discriminate. specialize (H3 eq_refl). now rewrite Rlt_bool_false by lra.
    - destruct y as [|[|]| |]; try discriminate Hy; destruct x as [|[|]| |[|]]; try discriminate Hx; reflexivity.
    - destruct y as [|[|]| |[|]]; try discriminate Hy; destruct x as [|[|]| |]; try discriminate Hx; reflexivity.
    - destruct y as [|[|]| |]; try discriminate Hy; destruct x as [|[|]| |]; try discriminate Hx; reflexivity.
  Qed.
  Lemma xsinf_pos r : 0 < r -> xsinf r = XPinf. Proof. intros. unfold xsinf. now rewrite Rcompare_Gt. Qed.
  Lemma xsinf_neg r : r < 0 -> xsinf r = XNinf. Proof. intros. unfold xsinf. now rewrite Rcompare_Lt. Qed.
  Lemma xsinf_0 : xsinf 0 = XNan. Proof. unfold xsinf. now rewrite Rcompare_Eq. Qed.
  Lemma finite_pos m e : 0 < F2R (Float radix2 (Z.pos m) e). Proof. apply F2R_gt_0. reflexivity. Qed.
  Lemma finite_neg m e : F2R (Float radix2 (Z.neg m) e) < 0. Proof. apply F2R_lt_0. reflexivity. Qed.
  Lemma sign_mul x y : is_finite x = true -> is_finite y = true -> B2R x * B2R y <> 0 ->
    Rlt_bool (B2R x * B2R y) 0 = xorb (Bsign x) (Bsign y).
  Proof.
    intros Hx Hy Hn. pose proof (sign_neg x Hx). pose proof (sign_neg y Hy). pose proof (sign_pos x Hx). pose proof (sign_pos y Hy).
    destruct (Bsign x), (Bsign y); repeat match goal with H : ?a = ?a -> _ |- _ => specialize (H eq_refl) | H : _ = _ -> _ |- _ => clear H end; cbn;
      [apply Rlt_bool_false|apply Rlt_bool_true|apply Rlt_bool_true|apply Rlt_bool_false]; nra.
  Qed.
  Lemma mult_x x y : f2x (Bmult mode_NE x y) = xround rd (xmul (f2x x) (f2x y)).
  Proof.
    destruct (is_finite x) eqn:Hx, (is_finite y) eqn:Hy.
    - rewrite (f2x_finite x), (f2x_finite y) by auto. cbn. pose proof (Bmult_correct prec emax Hp He mode_NE x y) as H. cbn [round_mode] in H.
      destruct (Rlt_bool_spec (Rabs (rnd (B2R x * B2R y))) (bpow radix2 emax)) as [A|A].
      + destruct H as (H1 & H2 & _). rewrite Hx, Hy in H2. rewrite f2x_finite by auto. rewrite H1. unfold rd. now rewrite Rlt_bool_true.
      + rewrite overflow_ne in H. rewrite (f2x_inf _ _ H), (rd_big _ A). now rewrite sign_mul by (auto; exact (big_nonzero _ A)).
    - destruct y as [|[|]| |]; try discriminate Hy; destruct x as [|[|]| |[|]]; try discriminate Hx; cbn; try reflexivity;
        rewrite ?Ropp_0, ?xsinf_0; try reflexivity;
        (pose proof (finite_pos m e) as P; pose proof (finite_neg m e) as Q; first [rewrite xsinf_pos by lra|rewrite xsinf_neg by lra]; reflexivity).
    - destruct y as [|[|]| |[|]]; try discriminate Hy; destruct x as [|[|]| |]; try discriminate Hx; cbn; try reflexivity;
        rewrite ?Ropp_0, ?xsinf_0; try reflexivity;
        (pose proof (finite_pos m e) as P; pose proof (finite_neg m e) as Q; first [rewrite xsinf_pos by lra|rewrite xsinf_neg by lra]; reflexivity).
    - destruct y as [|[|]| |]; try discriminate Hy; destruct x as [|[|]| |]; try discriminate Hx; reflexivity.
  Qed.
  Lemma zero_x x : f2x x = XFin 0 -> exists s, x = B754_zero s.
  Proof.
    destruct x as [s|[|]| |s m e H]; cbn; try discriminate; [eauto|]. intros E. injection E as E. exfalso. destruct s; [pose proof (finite_neg m e)|pose proof (finite_pos m e)]; cbn in *; lra.
  Qed.
  Lemma div_x x y : f2x y <> XFin 0 -> f2x (Bdiv mode_NE x y) = xround rd (xdiv (f2x x) (f2x y)).
  Proof.
    intros Hz. destruct (is_finite x) eqn:Hx, (is_finite y) eqn:Hy.
    - rewrite (f2x_finite x), (f2x_finite y) in * by auto. assert (Hz' : B2R y <> 0) by congruence. cbn. rewrite Req_bool_false by auto. cbn.
      pose proof (Bdiv_correct prec emax Hp He mode_NE x y Hz') as H. cbn [round_mode] in H.
      destruct (Rlt_bool_spec (Rabs (rnd (B2R x / B2R y))) (bpow radix2 emax)) as [A|A].
      + destruct H as (H1 & H2 & _). rewrite Hx in H2. rewrite f2x_finite by auto. rewrite H1. unfold rd. now rewrite Rlt_bool_true.
      + rewrite overflow_ne in H. rewrite (f2x_inf _ _ H), (rd_big _ A). pose proof (big_nonzero _ A) as Hn.
        assert (Hm : B2R x * B2R y <> 0). { intros E. apply Hn. apply Rmult_integral in E as [E|E]; [rewrite E; unfold Rdiv; ring|contradiction]. }
        rewrite <- (sign_mul x y Hx Hy Hm).
        replace (B2R x / B2R y) with (B2R x * B2R y * (/ B2R y * / B2R y)) by (field; auto).
        assert (0 < / B2R y * / B2R y). { assert (/ B2R y <> 0) by now apply Rinv_neq_0_compat. nra. }
        destruct (Rlt_bool_spec (B2R x * B2R y) 0), (Rlt_bool_spec (B2R x * B2R y * (/ B2R y * / B2R y)) 0); auto; exfalso; nra.
    - destruct y as [|[|]| |]; try discriminate Hy; destruct x as [|[|]| |[|]]; try discriminate Hx; cbn; rewrite ?rd_0; reflexivity.
    - destruct y as [|[|]| |[|]]; try discriminate Hy; destruct x as [|[|]| |]; try discriminate Hx; cbn in *; try contradiction; try reflexivity;
        (pose proof (finite_pos m e) as P; pose proof (finite_neg m e) as Q; first [rewrite Rlt_bool_true by lra|rewrite Rlt_bool_false by lra]; reflexivity).
    - destruct y as [|[|]| |]; try discriminate Hy; destruct x as [|[|]| |]; try discriminate Hx; reflexivity.
  Qed.
  Lemma div_zero_nan x s : f2x (Bdiv mode_NE x (B754_zero s)) = XNan <-> f2x x = XNan \/ f2x x = XFin 0.
  Proof.
    destruct x as [s'|[|]| |s' m e H]; cbn; try tauto; destruct s; cbn; try (split; [discriminate|intros [|]; discriminate]);
      (split; [destruct s'; discriminate|]; intros [E|E]; [discriminate|]; injection E as E; exfalso; destruct s'; [pose proof (finite_neg m e)|pose proof (finite_pos m e)]; cbn in *; lra).
  Qed.

  (** commutativity, signs of zero included *)
  Lemma same_float x y : f2x x = f2x y -> (is_finite x = true -> Bsign x = Bsign y) -> x = y.
  Proof.
    intros E S. destruct (is_finite x) eqn:Hx.
    - rewrite (f2x_finite x Hx) in E. symmetry in E. apply f2x_fin in E as [Hy E]. apply B2R_Bsign_inj; auto.
    - destruct x as [|[|]| |]; try discriminate Hx; destruct y as [|[|]| |]; try discriminate E; reflexivity.
  Qed.
  Lemma plus_comm x y : Bplus mode_NE x y = Bplus mode_NE y x.
  Proof.
    apply same_float; [now rewrite !plus_x, xadd_comm|]. intros Hf.
    destruct (is_finite x) eqn:Hx, (is_finite y) eqn:Hy; try (destruct x as [|[|]| |], y as [|[|]| |]; try discriminate; reflexivity).
    pose proof (Bplus_correct prec emax Hp He mode_NE x y Hx Hy) as A. pose proof (Bplus_correct prec emax Hp He mode_NE y x Hy Hx) as B.
    cbn [round_mode] in *. rewrite (Rplus_comm (B2R y)) in B.
    destruct (Rlt_bool (Rabs (rnd (B2R x + B2R y))) (bpow radix2 emax)).
    - destruct A as (_ & _ & ->), B as (_ & _ & ->). now rewrite andb_comm.
    - destruct A as [A _]. rewrite overflow_ne in A. destruct (Bplus mode_NE x y); try discriminate Hf; discriminate A.
  Qed.
  Lemma mult_comm x y : Bmult mode_NE x y = Bmult mode_NE y x.
  Proof.
    apply same_float; [now rewrite !mult_x, xmul_comm|]. intros Hf.
    pose proof (Bmult_correct prec emax Hp He mode_NE x y) as A. pose proof (Bmult_correct prec emax Hp He mode_NE y x) as B.
    cbn [round_mode] in *. rewrite (Rmult_comm (B2R y)) in B.
    destruct (Rlt_bool (Rabs (rnd (B2R x * B2R y))) (bpow radix2 emax)).
    - destruct A as (_ & F1 & A), B as (_ & F2 & B). rewrite A, B; [apply xorb_comm| |].
      + rewrite Hf in F1. rewrite andb_comm, <- F1 in F2. destruct (Bmult mode_NE y x); try discriminate F2; reflexivity.
      + destruct (Bmult mode_NE x y); try discriminate Hf; reflexivity.
    - rewrite overflow_ne in A. destruct (Bmult mode_NE x y); try discriminate Hf; discriminate A.
  Qed.

  Lemma one_x : f2x (Bone : F) = XFin 1.
  Proof. rewrite f2x_finite by apply is_finite_Bone. now rewrite Bone_correct. Qed.
  Lemma div_one_zero s : Bdiv mode_NE (Bone : F) (B754_zero s) = B754_infinity s.
  Proof. pose proof (is_finite_strict_Bone prec emax Hp He) as H. pose proof (Bsign_Bone prec emax Hp He) as S. destruct (Bone : F) as [| | |s' m e B]; try discriminate. cbn in *. rewrite S. now destruct s. Qed.

  Lemma float_denotes : denotes (float_num prec emax Hp He) rd f2x.
  Proof.
    constructor; cbn; auto; intros; try (eexists; split; [reflexivity|]).
    - apply leb_xle. - apply ltb_xlt. - apply eqb_xeq. - now apply rd_mono. - apply rd_0. - apply rd_id. - apply one_x.
    - rewrite opp_x, one_x. reflexivity.
    - apply opp_x. - apply abs_x. - apply plus_x. - apply minus_x. - apply mult_x.
    - split; [apply div_x|]. intros H. apply zero_x in H as (s & ->). apply div_zero_nan.
    - now rewrite plus_comm. - now rewrite mult_comm.
    - unfold pos_zero, neg_zero. pose proof H as H'. unfold is_zero in H'. cbn in H'. rewrite eqb_xeq in H'. apply xeq_iff in H' as [H' _]. apply zero_x in H' as (s & ->).
      cbn. rewrite div_one_zero. destruct s; [right|left]; auto.
    - destruct H as [H K]. unfold is_zero in H. cbn in H, K. rewrite eqb_xeq in H. apply xeq_iff in H as [H _]. apply zero_x in H as (s & ->). rewrite div_one_zero in K. injection K as ->.
      split; destruct a as [[|]|[|]| |[|] m e B]; cbn; try discriminate; try reflexivity.
    - destruct H as [H K]. unfold is_zero in H. cbn in H, K. rewrite eqb_xeq in H. apply xeq_iff in H as [H _]. apply zero_x in H as (s & ->). rewrite div_one_zero in K. injection K as ->.
      split; destruct a as [[|]|[|]| |[|] m e B]; cbn; try discriminate; try reflexivity.
  Qed.
  Lemma float_laws : num_laws (float_num prec emax Hp He).
  Proof. exact (denotes_laws float_denotes). Qed.
End Float.
