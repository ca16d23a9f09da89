(** wraparound (math.hpp 20-33): exact arithmetic and IEEE-754 formats. *)
From Coq Require Import Reals ZArith Bool Lra Lia.
From Flocq Require Import Core BinarySingleNaN Plus_error.
From Verif Require Import Outcome SetModel Spec Num NumLaws IntervalModel IvlSpec IvlProofs IntNum FloatNum XReal RealNum FloatProofs
  MathModel FloatMath RealMath MathSpec MathProofs FloatMathProofs.
Open Scope R_scope.

Lemma Ztrunc_div_bounds a b : 0 < b -> (0 <= a -> IZR (Ztrunc (a / b)) * b <= a < (IZR (Ztrunc (a / b)) + 1) * b) /\
  (a <= 0 -> (IZR (Ztrunc (a / b)) - 1) * b < a <= IZR (Ztrunc (a / b)) * b).
Proof.
  intros Hb. assert (E : a = (a / b) * b) by (field; lra). set (q := a / b) in *. split; intros Ha.
  - assert (0 <= q) by (unfold q; apply Rmult_le_pos; [lra|left; now apply Rinv_0_lt_compat]).
    rewrite Ztrunc_floor by auto. pose proof (Zfloor_lb q). pose proof (Zfloor_ub q). rewrite E. split; [apply Rmult_le_compat_r; lra|apply Rmult_lt_compat_r; lra].
  - assert (q <= 0) by (unfold q; apply Rmult_le_reg_r with b; [auto|]; unfold Rdiv; rewrite Rmult_assoc, Rinv_l by lra; lra).
    rewrite Ztrunc_ceil by auto. pose proof (Zceil_ub q). pose proof (Zceil_lb q).
    rewrite E. split; [apply Rmult_lt_compat_r; lra|apply Rmult_le_compat_r; lra].
Qed.
Lemma Rfmod_pos a b : 0 < b -> 0 <= a -> 0 <= Rfmod a b < b.
Proof. intros Hb Ha. destruct (Ztrunc_div_bounds a b Hb) as [H _]. specialize (H Ha). unfold Rfmod. lra. Qed.
Lemma Rfmod_gt a b : 0 < b -> - b < Rfmod a b < b.
Proof.
  intros Hb. destruct (Ztrunc_div_bounds a b Hb) as [H1 H2]. unfold Rfmod. destruct (Rle_or_lt 0 a) as [H|H]; [specialize (H1 H)|specialize (H2 (Rlt_le _ _ H))]; lra.
Qed.
Lemma Rfmod_cong a b : exists k : Z, Rfmod a b = a + IZR k * b.
Proof. exists (- Ztrunc (a / b))%Z. unfold Rfmod. rewrite opp_IZR. ring. Qed.

(** exact arithmetic *)
Definition Rwrap (v mi ma : R) : R := mi + Rfmod ((ma - mi) + Rfmod (v - mi) (ma - mi)) (ma - mi).
Lemma Rwrap_spec v mi ma : mi < ma -> mi <= Rwrap v mi ma < ma /\ exists k : Z, Rwrap v mi ma = v + IZR k * (ma - mi).
Proof.
  intros H. unfold Rwrap. set (b := ma - mi). assert (Hb : 0 < b) by (unfold b; lra).
  pose proof (Rfmod_gt (v - mi) b Hb). destruct (Rfmod_cong (v - mi) b) as [k Hk].
  set (s := b + Rfmod (v - mi) b). assert (0 <= s) by (unfold s; lra). pose proof (Rfmod_pos s b Hb ltac:(auto)). destruct (Rfmod_cong s b) as [k' Hk'].
  split; [unfold b in *; lra|]. exists (1 + k + k')%Z. rewrite Hk'. unfold s. rewrite Hk, !plus_IZR. ring.
Qed.
Lemma real_wraparound v mi ma : mi < ma -> @wraparound real_num real_math (XFin v) (XFin mi) (XFin ma) = Ret (XFin (Rwrap v mi ma)).
Proof.
  intros H. unfold wraparound. cbn. unfold xlt. cbn. rewrite Rle_bool_true, Rle_bool_false by lra. cbn.
  unfold xsub. cbn. change (ma + - mi) with (ma - mi). rewrite !Req_bool_false by lra. reflexivity.
Qed.
(** uniqueness: the representative in the half-open range *)
Lemma wrap_unique v mi ma r k : mi < ma -> mi <= r < ma -> r = v + IZR k * (ma - mi) -> Rwrap v mi ma = r.
Proof.
  intros H Hr E. destruct (Rwrap_spec v mi ma H) as [B [k' E']]. set (b := ma - mi) in *. assert (Hb : 0 < b) by (unfold b; lra).
  assert (D : Rwrap v mi ma - r = IZR (k' - k) * b) by (rewrite E, E', minus_IZR; ring).
  assert (Bd : - b < IZR (k' - k) * b < b) by (rewrite <- D; unfold b; lra).
  assert (Kz : (k' - k = 0)%Z).
  { assert (-1 < IZR (k' - k) < 1) by (split; apply Rmult_lt_reg_r with b; lra).
    assert (IZR (-1) < IZR (k' - k) < IZR 1) by lra. destruct H1 as [K1 K2]. apply lt_IZR in K1, K2. lia. }
  rewrite Kz in D. lra.
Qed.

Section Float.
  Variables (prec emax : Z) (Hp : Prec_gt_0 prec) (He : Prec_lt_emax prec emax).
  Existing Instance Hp.
  Existing Instance He.
  Notation F := (binary_float prec emax).
  Notation fexp := (SpecFloat.fexp prec emax).
  Notation rnd := (round radix2 fexp ZnearestE).
  Notation f2x := (f2x prec emax).
  Notation rd := (rd prec emax).
  Variable L : libm F.
  Notation FN := (float_num prec emax Hp He).
  Notation FM := (float_math prec emax Hp He L).
  Implicit Types (x y : F).
  Local Instance fexp_valid' : Valid_exp fexp.
  Proof. unfold SpecFloat.fexp. apply FLT_exp_valid. exact Hp. Qed.

  Lemma fin_dec x : (exists r, f2x x = XFin r) \/ is_finite x = false.
  Proof. destruct (is_finite x) eqn:H; [left; rewrite f2x_finite by auto; eauto|auto]. Qed.
  Lemma rd_fin_inv r s : rd r = XFin s -> s = rnd r.
  Proof. unfold FloatProofs.rd. destruct Rlt_bool; [|destruct Rlt_bool; discriminate]. intros E. now injection E as <-. Qed.
  Lemma fmod_nonfinite_l x y : is_finite x = false -> Bfmod prec emax Hp He x y = B754_nan.
  Proof. destruct x, y; cbn; intros; try discriminate; reflexivity. Qed.
  Lemma plus_inf_l s y : is_finite y = true -> Bplus mode_NE (B754_infinity s : F) y = B754_infinity s.
  Proof. destruct y; try discriminate; reflexivity. Qed.
  Lemma gt_pred_round r a : generic_format radix2 fexp a -> a < rnd r -> a <= r.
  Proof.
    intros Ga H. destruct (Rle_or_lt a r) as [K|K]; [exact K|]. exfalso. apply (Rlt_not_le _ _ H).
    rewrite <- (round_generic radix2 fexp ZnearestE a Ga). apply round_le; auto with typeclass_instances. lra.
  Qed.

  (** the result is a number of the closed range, or NaN (after an overflow) *)
  Lemma float_wraparound (v mi ma : FN) : is_finite (v : F) = true -> is_finite (mi : F) = true -> is_finite (ma : F) = true -> o_lt mi ma = true ->
    exists r : FN, wraparound FM v mi ma = Ret r /\
      ((o_le mi r = true /\ o_le r ma = true) \/ (nan r /\
        (is_finite (Bminus mode_NE (ma : F) (mi : F)) = false \/ is_finite (Bminus mode_NE (v : F) (mi : F)) = false \/
         is_finite (Bplus mode_NE (Bminus mode_NE (ma : F) (mi : F)) (Bfmod prec emax Hp He (Bminus mode_NE (v : F) (mi : F)) (Bminus mode_NE (ma : F) (mi : F)))) = false))).
  Proof.
    intros Fv Fi Fa H. unfold wraparound. rewrite H. cbn [expects bind]. cbn [n_sub n_add float_num float_math m_fmod bind].
    set (range := Bminus mode_NE (ma : F) (mi : F)). set (d := Bminus mode_NE (v : F) (mi : F)).
    set (s := Bplus mode_NE range (Bfmod prec emax Hp He d range)). set (m := Bfmod prec emax Hp He s range).
    exists (Bplus mode_NE (mi : F) m). split; [reflexivity|].
    assert (NaNcase : m = B754_nan -> nan (Bplus mode_NE (mi : F) m : FN)) by (intros ->; unfold nan; cbn; destruct (mi : F); reflexivity).
    destruct (is_finite range) eqn:Fr.
    2:{ right. split; [|auto]. apply NaNcase. unfold m. apply fmod_nonfinite_l. unfold s. destruct range as [|sr| |]; try discriminate Fr; [|reflexivity].
        destruct (Bfmod prec emax Hp He d (B754_infinity sr)) as [|[|]| |]; destruct sr; reflexivity. }
    destruct (is_finite d) eqn:Fd.
    2:{ right. split; [|auto]. apply NaNcase. unfold m. apply fmod_nonfinite_l. unfold s. rewrite fmod_nonfinite_l by exact Fd. now destruct range. }
    destruct (is_finite s) eqn:Fs.
    2:{ right. split; [|auto]. apply NaNcase. unfold m. now apply fmod_nonfinite_l. }
    left. cbn in H. rewrite Bltb_correct in H by auto. destruct (Rlt_bool_spec (B2R mi) (B2R ma)) as [Lt|]; [clear H|discriminate H].
    assert (Er : B2R range = rnd (B2R ma - B2R mi)).
    { pose proof (minus_x prec emax Hp He ma mi) as E. fold range in E. rewrite (f2x_finite _ _ _ Fr), (f2x_finite _ _ _ Fi), (f2x_finite _ _ _ Fa) in E. cbn in E. symmetry in E. now apply rd_fin_inv in E. }
    assert (Pr : 0 < B2R range).
    { rewrite Er. destruct (Rle_lt_or_eq_dec 0 (rnd (B2R ma - B2R mi))) as [|E]; auto.
      - rewrite <- (rnd_0 prec emax). apply round_le; auto with typeclass_instances. lra.
      - exfalso. assert (Sub : rnd (B2R ma - B2R mi) <> 0).
        { apply (round_plus_neq_0 radix2 (FLT_exp (3 - emax - prec) prec) ZnearestE); auto with typeclass_instances;
            [apply generic_format_B2R|apply generic_format_opp; apply generic_format_B2R|lra]. }
        lra. }
    destruct (fmod_x prec emax Hp He d range Fd Fr ltac:(lra)) as [Ff Rf].
    assert (Es : B2R s = rnd (B2R range + Rfmod (B2R d) (B2R range))).
    { pose proof (plus_x prec emax Hp He range (Bfmod prec emax Hp He d range)) as E. fold s in E.
      rewrite (f2x_finite _ _ _ Fr), (f2x_finite _ _ _ Ff), (f2x_finite _ _ _ Fs), Rf in E. cbn in E. symmetry in E. now apply rd_fin_inv in E. }
    assert (Ps : 0 <= B2R s).
    { rewrite Es, <- (rnd_0 prec emax). apply round_le; auto with typeclass_instances. pose proof (Rfmod_gt (B2R d) (B2R range) Pr). lra. }
    destruct (fmod_x prec emax Hp He s range Fs Fr ltac:(lra)) as [Fm Rm]. fold m in Fm, Rm.
    pose proof (Rfmod_pos _ _ Pr Ps) as Bm. rewrite <- Rm in Bm.
    assert (Up : B2R mi + B2R m <= B2R ma).
    { assert (B2R m <= B2R ma - B2R mi); [|lra]. apply gt_pred_round; [apply generic_format_B2R|]. rewrite <- Er. lra. }
    assert (Lw : B2R mi <= B2R mi + B2R m) by lra.
    pose proof (plus_x prec emax Hp He mi m) as E. rewrite (f2x_finite _ _ _ Fi), (f2x_finite _ _ _ Fm) in E. cbn [xadd xround] in E.
    pose proof (rd_mono prec emax Hp _ _ Up) as U. pose proof (rd_mono prec emax Hp _ _ Lw) as W. rewrite <- E in U, W.
    pose proof (rd_id prec emax mi) as Ii. pose proof (rd_id prec emax ma) as Ia. rewrite (f2x_finite _ _ _ Fi) in Ii. rewrite (f2x_finite _ _ _ Fa) in Ia. cbn [xround] in Ii, Ia.
    split; cbn; rewrite (leb_xle prec emax); rewrite (f2x_finite _ _ _ Fi) || rewrite (f2x_finite _ _ _ Fa); [rewrite <- Ii|rewrite <- Ia]; auto.
  Qed.
End Float.

Lemma float_finite prec emax Hp He (x : float_num prec emax Hp He) : finite x <-> is_finite (x : binary_float prec emax) = true.
Proof.
  unfold finite. rewrite (nan_not_ok (denotes_ord (float_denotes prec emax Hp He))), (ok_phi (float_denotes prec emax Hp He)), (infinite_phi (float_denotes prec emax Hp He)).
  split.
  - intros [H1 H2]. destruct (x : binary_float prec emax) as [|[|]| |]; cbn in *; intuition congruence.
  - intros H. rewrite (f2x_finite _ _ _ H). split; [intros K; apply K; discriminate|intros [E|E]; discriminate].
Qed.

(** The half-open range is missed by rounding: wraparound(64 - 2^-47, 100, 101) = 101 in double precision. *)
Lemma float_wraparound_hits_max L : exists v mi ma r : float64, finite v /\ finite mi /\ finite ma /\ o_lt mi ma = true /\
  wraparound (float_math 53 1024 prec_gt_0_53 prec_lt_emax_64 L) v mi ma = Ret r /\ o_eq r ma = true.
Proof.
  exists (f64 (2 ^ 53 - 1) (-47)), (f64 100 0), (f64 101 0), (f64 101 0).
  do 3 (split; [apply float_finite; vm_compute; reflexivity|]).
  split; [vm_compute; reflexivity|]. split; [|vm_compute; reflexivity].
  unfold wraparound. assert (E : forall b, b = true -> expects b = Ret tt) by (intros b ->; reflexivity). rewrite E by (vm_compute; reflexivity).
  cbn [n_sub n_add float64 float_num float_math m_fmod bind]. f_equal. apply B2SF_inj. vm_compute. reflexivity.
Qed.

(** Numbers up to an eighth of the overflow threshold do not give NaN. *)
Section NoOverflow.
  Variables (prec emax : Z) (Hp : Prec_gt_0 prec) (He : Prec_lt_emax prec emax).
  Existing Instance Hp.
  Existing Instance He.
  Notation F := (binary_float prec emax).
  Notation fexp := (SpecFloat.fexp prec emax).
  Notation rnd := (round radix2 fexp ZnearestE).
  Notation f2x := (f2x prec emax).
  Notation rd := (rd prec emax).
  Implicit Types (x y : F).
  Local Instance fexp_valid2 : Valid_exp fexp.
  Proof. unfold SpecFloat.fexp. apply FLT_exp_valid. exact Hp. Qed.

  Lemma rnd_le_bpow r k : (k = emax - 1 \/ k = emax - 2)%Z -> Rabs r <= bpow radix2 k -> Rabs (rnd r) <= bpow radix2 k.
  Proof.
    intros Hk H. apply abs_round_le_generic; auto with typeclass_instances. apply generic_format_bpow. unfold SpecFloat.fexp, SpecFloat.emin.
    pose proof Hp as P1. pose proof He as P2. unfold Prec_gt_0 in P1. unfold Prec_lt_emax in P2. lia.
  Qed.
  Lemma rd_small r k : (k = emax - 1 \/ k = emax - 2)%Z -> Rabs r <= bpow radix2 k -> rd r = XFin (rnd r).
  Proof.
    intros Hk H. unfold FloatProofs.rd. rewrite Rlt_bool_true; [reflexivity|]. eapply Rle_lt_trans; [apply (rnd_le_bpow r k Hk H)|]. apply bpow_lt. lia.
  Qed.
  Lemma bpow_dbl k : bpow radix2 k + bpow radix2 k = bpow radix2 (k + 1).
  Proof. rewrite bpow_plus_1. change (IZR radix2) with 2. ring. Qed.
  Definition small x : Prop := is_finite x = true /\ Rabs (B2R x) <= bpow radix2 (emax - 3).
  Lemma minus_small x y : small x -> small y -> is_finite (Bminus mode_NE x y) = true /\ Rabs (B2R (Bminus mode_NE x y)) <= bpow radix2 (emax - 2).
  Proof.
    intros [Fx Bx] [Fy By]. assert (A : Rabs (B2R x - B2R y) <= bpow radix2 (emax - 2)).
    { eapply Rle_trans; [apply Rabs_triang|]. rewrite Rabs_Ropp. replace (emax - 2)%Z with (emax - 3 + 1)%Z by ring. rewrite <- bpow_dbl. lra. }
    pose proof (minus_x prec emax Hp He x y) as E. rewrite (f2x_finite _ _ _ Fx), (f2x_finite _ _ _ Fy) in E. cbn in E. change (B2R x + - B2R y) with (B2R x - B2R y) in E.
    rewrite (rd_small _ (emax - 2) (or_intror eq_refl) A) in E. apply f2x_fin in E as [E1 E2]. split; [exact E1|]. rewrite E2. apply rnd_le_bpow; auto.
  Qed.
  Lemma float_wraparound_small L (v mi ma : float_num prec emax Hp He) : small v -> small mi -> small ma -> o_lt mi ma = true ->
    exists r, wraparound (float_math prec emax Hp He L) v mi ma = Ret r /\ o_le mi r = true /\ o_le r ma = true.
  Proof.
    intros Sv Si Sa H. destruct (float_wraparound prec emax Hp He L v mi ma (proj1 Sv) (proj1 Si) (proj1 Sa) H) as (r & Er & [K|[Nr K]]); [eauto|exfalso].
    destruct (minus_small _ _ Sa Si) as [F1 B1], (minus_small _ _ Sv Si) as [F2 B2]. destruct K as [K|[K|K]]; try congruence.
    set (range := Bminus mode_NE (ma : F) (mi : F)) in *. set (d := Bminus mode_NE (v : F) (mi : F)) in *.
    assert (Z0 : B2R range <> 0).
    { cbn in H. rewrite Bltb_correct in H by (apply Sa || apply Si). destruct (Rlt_bool_spec (B2R mi) (B2R ma)) as [Lt|]; [|discriminate H].
      pose proof (minus_x prec emax Hp He ma mi) as E. fold range in E. rewrite (f2x_finite _ _ _ F1), (f2x_finite _ _ _ (proj1 Si)), (f2x_finite _ _ _ (proj1 Sa)) in E. cbn in E.
      symmetry in E. apply rd_fin_inv in E. rewrite E.
      apply (round_plus_neq_0 radix2 (FLT_exp (3 - emax - prec) prec) ZnearestE); auto with typeclass_instances;
        [apply generic_format_B2R|apply generic_format_opp; apply generic_format_B2R|lra]. }
    destruct (fmod_x prec emax Hp He d range F2 F1 Z0) as [Ff Rf].
    pose proof (plus_x prec emax Hp He range (Bfmod prec emax Hp He d range)) as E.
    rewrite (f2x_finite _ _ _ F1), (f2x_finite _ _ _ Ff), Rf in E. cbn [xadd xround] in E.
    assert (P : 0 < B2R range).
    { cbn in H. rewrite Bltb_correct in H by (apply Sa || apply Si). destruct (Rlt_bool_spec (B2R mi) (B2R ma)) as [Lt|]; [|discriminate H].
      assert (0 <= B2R range); [|lra].
      pose proof (minus_x prec emax Hp He ma mi) as E'. fold range in E'. rewrite (f2x_finite _ _ _ F1), (f2x_finite _ _ _ (proj1 Si)), (f2x_finite _ _ _ (proj1 Sa)) in E'. cbn in E'.
      symmetry in E'. apply rd_fin_inv in E'. rewrite E', <- (rnd_0 prec emax). apply round_le; auto with typeclass_instances. lra. }
    pose proof (Rfmod_gt (B2R d) (B2R range) P) as G.
    rewrite (rd_small _ (emax - 1) (or_introl eq_refl)) in E.
    - apply f2x_fin in E as [E _]. rewrite E in K. discriminate K.
    - replace (emax - 1)%Z with (emax - 2 + 1)%Z by ring. rewrite <- bpow_dbl. rewrite Rabs_right in B1 by lra. apply Rabs_le. lra.
  Qed.
End NoOverflow.
