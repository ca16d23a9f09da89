(** Machine intervals of pow and the exact powers. *)
From Coq Require Import Reals ZArith Bool Lra Psatz Lia.
From Flocq Require Import Core BinarySingleNaN Relative Plus_error Mult_error.
From Verif Require Import Outcome SetModel MathModel FloatMath MathSpec FloatMathProofs Spec Num NumLaws IntervalModel IvlSpec IvlProofs XReal FloatNum FloatProofs
  ValueTypes MathProofs RoundSpec RoundProofs MachineSpec NumericFacts TrigMachineProofs SinMachineProofs RealNum MonoProofs PowMachineProofs.
Open Scope R_scope.

Lemma pow_formula_hull N M : fp_math N M -> forall dbg (x y : arg N), increasing nonneg (m_log M) -> increasing anywhere (m_exp M) -> aproper x -> nonneg (alower x) -> aproper y ->
  finite (alower y) -> finite (aupper y) -> exists Z, ipow M dbg x y = Ret Z /\ is_hull (img2 (pow_formula M) x y) Z.
Proof. destruct 1; intros; [eapply (pow_nonneg_machine (float_denotes prec emax Hp He))|eapply (pow_nonneg_machine real_denotes)]; eauto. Qed.
Lemma pow_signed_hull N M : fp_math N M -> forall dbg k (x y : arg N), increasing nonneg (m_log M) -> increasing anywhere (m_exp M) -> aproper x -> o_lt (alower x) n_zero = true ->
  o_eq (alower y) (aupper y) = true -> finite (alower y) -> m_trunc M (alower y) = Ret k -> o_eq (m_of_Z M k) (alower y) = true ->
  exists Z, ipow M dbg x y = Ret Z /\ (forall v w, ael x v -> ael y w -> exists z, pow_signed M k v w = Ret z /\ el Z z)
    /\ (o_lt (aupper x) n_zero = true -> is_hull (img2 (pow_signed M k) x y) Z).
Proof. destruct 1; intros; [eapply (pow_integer_machine (float_denotes prec emax Hp He))|eapply (pow_integer_machine real_denotes)]; eauto. Qed.

Lemma corner_low c d s p q t : c <= s <= d -> p <= t <= q -> exists w v, (w = c \/ w = d) /\ (v = p \/ v = q) /\ w * v <= s * t.
Proof.
  intros Hs Ht. destruct (Rle_or_lt 0 t) as [A|A].
  - destruct (Rle_or_lt 0 c) as [B|B]; [exists c, p|exists c, q]; (split; [auto|split; [auto|]]); nra.
  - destruct (Rle_or_lt 0 d) as [B|B]; [exists d, p|exists d, q]; (split; [auto|split; [auto|]]); nra.
Qed.
Lemma corner_high c d s p q t : c <= s <= d -> p <= t <= q -> exists w v, (w = c \/ w = d) /\ (v = p \/ v = q) /\ s * t <= w * v.
Proof.
  intros Hs Ht. destruct (corner_low (- d) (- c) (- s) p q t ltac:(lra) Ht) as (w & v & Hw & Hv & K). exists (- w), v.
  split; [destruct Hw as [-> | ->]; [right|left]; lra|]. split; [exact Hv|lra].
Qed.

Section Near.
  Context (prec emax : Z) (Hp : Prec_gt_0 prec) (He : Prec_lt_emax prec emax).
  Existing Instance Hp.
  Existing Instance He.
  Notation F := (binary_float prec emax).
  Notation FN := (float_num prec emax Hp He).
  Notation fexp := (SpecFloat.fexp prec emax).
  Notation rnd := (round radix2 fexp ZnearestE).
  Notation u := (bpow radix2 (- prec)).
  Local Instance valid_fexp : Valid_exp fexp := fexp_correct prec emax Hp.

  Lemma rnd_error p : Rabs (rnd p - p) <= u * (Rabs p + 1).
  Proof.
    pose proof (bpow_gt_0 radix2 (- prec)) as U. pose proof (Rabs_pos p) as P.
    assert (Hpe : (0 < prec < emax)%Z) by (pose proof Hp; pose proof He; unfold Prec_gt_0, Prec_lt_emax in *; lia).
    assert (EM : bpow radix2 (3 - emax - prec) <= 2 * u).
    { change 2 with (bpow radix2 1). rewrite <- bpow_plus. apply bpow_le. lia. }
    eapply Rle_trans; [apply error_le_half_ulp; auto with typeclass_instances|].
    destruct (Req_dec p 0) as [->|N0].
    - change (ulp radix2 fexp 0) with (ulp radix2 (FLT_exp (3 - emax - prec) prec) 0). rewrite ulp_FLT_0 by exact Hp. rewrite Rabs_R0.
      lra.
    - rewrite ulp_neq_0 by exact N0. unfold cexp. destruct (Z.le_gt_cases (mag radix2 p - prec) (SpecFloat.emin prec emax)) as [K|K].
      + unfold SpecFloat.fexp. rewrite Z.max_r by exact K. unfold SpecFloat.emin. nra.
      + unfold SpecFloat.fexp. rewrite Z.max_l by lia. replace (mag radix2 p - prec)%Z with ((mag radix2 p - 1) + (- prec) + 1)%Z by lia. rewrite !bpow_plus. change (bpow radix2 1) with 2.
        pose proof (bpow_mag_le radix2 p N0). nra.
  Qed.

  Context (L : libm F) (el ex A Lam T : R).
  Notation M := (float_math prec emax Hp He L).
  Hypothesis Lg : @log_within prec emax Hp He el Lam (l_log L).
  Hypothesis Ex : @exp_within prec emax Hp He ex T (l_exp L).
  Let E := A * el + u * (A * (Lam + el) + 1).
  Hypothesis HT : A * Lam + E <= T.
  Hypothesis HT' : T <= bpow radix2 (emax - 1).
  Hypothesis HA : 0 <= A.
  Hypothesis HL : 0 <= Lam.
  Hypothesis Hel : 0 <= el.
  Hypothesis Hex : 0 <= ex <= 1.

  Lemma formula_near (v w : FN) : is_finite (v : F) = true -> 0 < B2R v -> Rabs (ln (B2R v)) <= Lam -> is_finite (w : F) = true -> Rabs (B2R w) <= A ->
    exists z : FN, pow_formula M v w = Ret z /\ is_finite (z : F) = true /\ (1 - ex) * exp (- E) * exp (B2R w * ln (B2R v)) <= B2R z <= (1 + ex) * exp E * exp (B2R w * ln (B2R v)).
  Proof.
    intros Fv Pv Lv Fw Bw. destruct (Lg v Fv Pv Lv) as [Fl Bl].
    set (t := B2R w) in *. set (l := B2R (l_log L v : F)) in *. set (q := ln (B2R v)) in *. pose proof (bpow_gt_0 radix2 (- prec)) as U.
    assert (Bl' : Rabs l <= Lam + el) by (replace l with (q + (l - q)) by ring; eapply Rle_trans; [apply Rabs_triang|lra]).
    assert (P1 : Rabs (t * l) <= A * (Lam + el)) by (rewrite Rabs_mult; apply Rmult_le_compat; auto using Rabs_pos).
    assert (P2 : Rabs (t * l - t * q) <= A * el) by (rewrite <- Rmult_minus_distr_l, Rabs_mult; apply Rmult_le_compat; auto using Rabs_pos).
    assert (P3 : Rabs (rnd (t * l) - t * l) <= u * (A * (Lam + el) + 1)).
    { eapply Rle_trans; [apply rnd_error|]. apply Rmult_le_compat_l; lra. }
    assert (P4 : Rabs (t * q) <= A * Lam) by (rewrite Rabs_mult; apply Rmult_le_compat; auto using Rabs_pos).
    assert (P5 : Rabs (rnd (t * l) - t * q) <= E).
    { replace (rnd (t * l) - t * q) with ((rnd (t * l) - t * l) + (t * l - t * q)) by ring. eapply Rle_trans; [apply Rabs_triang|]. unfold E. lra. }
    assert (P6 : Rabs (rnd (t * l)) <= T). { replace (rnd (t * l)) with ((rnd (t * l) - t * q) + t * q) by ring. eapply Rle_trans; [apply Rabs_triang|]. lra. }
    assert (Q0 : 0 <= u * (A * (Lam + el) + 1)) by (apply Rmult_le_pos; nra).
    assert (K : exists e : FN, pow_formula M v w = Ret (l_exp L e) /\ is_finite (e : F) = true /\ B2R e = rnd (t * l)).
    { unfold pow_formula. destruct (o_eq w n_zero) eqn:Z0; cbn [bind].
      - exists (n_zero : FN). split; [reflexivity|]. split; [reflexivity|]. assert (t = 0) as ->. { apply (zero_phi (float_denotes prec emax Hp He)) in Z0. apply f2x_fin in Z0. apply Z0. }
        rewrite Rmult_0_l, round_0 by auto with typeclass_instances. reflexivity.
      - destruct (mult_real prec emax Hp He w (l_log L v) Fw Fl) as [F1 F2]; [fold t l; unfold E in HT; nra|]. exists (Bmult mode_NE w (l_log L v)). auto. }
    destruct K as (e & Ee & Fe & Be). destruct (Ex e Fe ltac:(rewrite Be; exact P6)) as [Fz Bz]. exists (l_exp L e). split; [exact Ee|]. split; [exact Fz|].
    change (B2R (l_exp L e : FN)) with (B2R (l_exp L e : F)). rewrite Be in Bz. apply Rabs_le_inv in P5, Bz. set (x := rnd (t * l)) in *. set (y := t * q) in *.
    assert (X1 : exp x <= exp E * exp y) by (rewrite <- exp_plus; apply exp_le; lra).
    assert (X2 : exp (- E) * exp y <= exp x) by (rewrite <- exp_plus; apply exp_le; lra).
    pose proof (exp_pos x). pose proof (exp_pos y). pose proof (exp_pos E). pose proof (exp_pos (- E)).
    rewrite !Rmult_assoc. split.
    - apply Rle_trans with ((1 - ex) * exp x); [apply Rmult_le_compat_l; lra|lra].
    - apply Rle_trans with ((1 + ex) * exp x); [lra|apply Rmult_le_compat_l; lra].
  Qed.

  Lemma le_B2R (a b : FN) : is_finite (a : F) = true -> is_finite (b : F) = true -> (o_le a b = true <-> B2R a <= B2R b).
  Proof. intros Fa Fb. destruct (le_real prec emax Hp He a b Fa Fb) as [[-> H]|[-> H]]; split; auto; intros; lra || discriminate. Qed.
  Lemma ael_real (x : arg FN) v : finite_arg x -> ael x v -> is_finite (v : F) = true /\ within x (B2R v).
  Proof.
    intros (F1 & F2 & O) [A1 A2]. assert (Fv : is_finite (v : F) = true).
    { assert (A1' := A1). assert (A2' := A2). rewrite (d_le _ _ _ (float_denotes prec emax Hp He)) in A1', A2'. rewrite (f2x_finite _ _ _ F1) in A1'. rewrite (f2x_finite _ _ _ F2) in A2'.
      destruct v as [?|[|]| |? ? ? ?]; try reflexivity; discriminate. }
    split; [exact Fv|]. apply le_B2R in A1, A2; auto. split; auto.
  Qed.
  Lemma eq_real (a b : FN) : o_eq a b = true -> is_finite (a : F) = true -> is_finite (b : F) = true /\ B2R b = B2R a.
  Proof.
    intros H Fa. rewrite (d_eq _ _ _ (float_denotes prec emax Hp He)) in H. apply xeq_iff in H as [H _]. rewrite (f2x_finite _ _ _ Fa) in H. symmetry in H. now apply f2x_fin in H.
  Qed.
  Lemma finite_proper (x : arg FN) : finite_arg x -> aproper x.
  Proof. intros (F1 & F2 & O). unfold aproper. now apply le_B2R. Qed.
  Lemma fin_finite (v : FN) : is_finite (v : F) = true -> finite v.
  Proof.
    intros H. set (D := float_denotes prec emax Hp He). unfold finite. rewrite (nan_not_ok (denotes_ord D)), (ok_phi D), (infinite_phi D). rewrite (f2x_finite _ _ _ H).
    split; [|intros [K|K]; discriminate]. intros K. apply K. discriminate.
  Qed.
  Lemma ln_between a r b : 0 < a -> a <= r <= b -> ln a <= ln r <= ln b.
  Proof. intros P [H1 H2]. split; apply ln_le'; lra. Qed.

  Theorem pow_near dbg (x y : arg FN) : increasing nonneg (m_log M) -> increasing anywhere (m_exp M) -> finite_arg x -> 0 < B2R (alower x) ->
    Rabs (ln (B2R (alower x))) <= Lam -> Rabs (ln (B2R (aupper x))) <= Lam -> finite_arg y -> bounded_by A y -> near_powers ex E (ipow M dbg x y) x y.
  Proof.
    intros IL IE Fx Px L1 L2 Fy By. destruct By as [By1 By2].
    pose proof (finite_proper x Fx) as Prx. pose proof (finite_proper y Fy) as Pry. pose proof Fx as (Fx1 & Fx2 & Ox). pose proof Fy as (Fy1 & Fy2 & Oy).
    destruct (pow_formula_hull FN M (fm_float prec emax Hp He L) dbg x y IL IE Prx) as (Z & EZ & H1 & (z1 & (v1 & w1 & X1 & Y1 & G1) & Q1) & (z2 & (v2 & w2 & X2 & Y2 & G2) & Q2)); auto.
    { unfold nonneg. apply (proj2 (le_B2R n_zero (alower x) eq_refl Fx1)). apply Rlt_le. exact Px. } { now apply fin_finite. } { now apply fin_finite. }
    assert (EL : forall v w, ael x v -> ael y w -> exists z : FN, pow_formula M v w = Ret z /\ is_finite (z : F) = true
      /\ (1 - ex) * exp (- E) * exp (B2R w * ln (B2R v)) <= B2R z <= (1 + ex) * exp E * exp (B2R w * ln (B2R v))).
    { intros v w Hv Hw. destruct (ael_real x v Fx Hv) as [Fv Wv], (ael_real y w Fy Hw) as [Fw Ww]. destruct Wv as [Wv1 Wv2], Ww as [Ww1 Ww2]. apply formula_near; auto.
      - lra.
      - destruct (ln_between _ _ _ Px (conj Wv1 Wv2)). apply Rabs_le_inv in L1, L2. apply Rabs_le. lra.
      - apply Rabs_le_inv in By1, By2. apply Rabs_le. lra. }
    destruct (EL v1 w1 X1 Y1) as (z1' & G1' & Fz1 & B1). rewrite G1 in G1'. injection G1' as <-. destruct (EL v2 w2 X2 Y2) as (z2' & G2' & Fz2 & B2). rewrite G2 in G2'. injection G2' as <-.
    destruct (eq_real _ _ Q1 Fz1) as [FZ1 V1], (eq_real _ _ Q2 Fz2) as [FZ2 V2].
    assert (IN : forall v w z, ael x v -> ael y w -> pow_formula M v w = Ret z -> is_finite (z : F) = true -> B2R (lo Z) <= B2R z <= B2R (hi Z)).
    { intros v w z Hv Hw G Fz. destruct (H1 z) as [K1 K2]; [exists v, w; auto|]. apply le_B2R in K1, K2; auto. }
    assert (CV : forall w t, (w = B2R (alower y) \/ w = B2R (aupper y)) -> (t = ln (B2R (alower x)) \/ t = ln (B2R (aupper x))) ->
      exists v' w', ael x v' /\ ael y w' /\ B2R w' = w /\ ln (B2R v') = t).
    { intros w t Hw Ht. exists (if Req_bool t (ln (B2R (alower x))) then alower x else aupper x), (if Req_bool w (B2R (alower y)) then alower y else aupper y).
      set (HO := denotes_ord (float_denotes prec emax Hp He)).
      split; [destruct (Req_bool_spec t (ln (B2R (alower x)))); [now apply (ael_lower HO)|now apply (ael_upper HO)]|].
      split; [destruct (Req_bool_spec w (B2R (alower y))); [now apply (ael_lower HO)|now apply (ael_upper HO)]|].
      split; [destruct (Req_bool_spec w (B2R (alower y)))|destruct (Req_bool_spec t (ln (B2R (alower x))))]; destruct Hw, Ht; congruence. }
    pose proof (exp_pos E) as PE. pose proof (exp_pos (- E)) as PE'.
    exists Z. split; [exact EZ|]. split; [|split; [|split]].
    - split; [exact FZ1|]. split; [exact FZ2|]. cbn [alower aupper]. destruct (IN v1 w1 z1 X1 Y1 G1 Fz1). lra.
    - intros r s Hr Hs. destruct (ln_between _ _ _ Px Hr) as [R1 R2]. unfold Rpower. split.
      + destruct (corner_low _ _ s _ _ (ln r) Hs (conj R1 R2)) as (w & t & Hw & Ht & K). destruct (CV w t Hw Ht) as (v' & w' & Hv' & Hw' & Ew & Et).
        destruct (EL v' w' Hv' Hw') as (z & Gz & Fz & _ & Bz). rewrite Ew, Et in Bz. destruct (IN v' w' z Hv' Hw' Gz Fz) as [I1 _].
        apply Rle_trans with (1 := I1). apply Rle_trans with (1 := Bz). apply Rmult_le_compat_l; [apply Rmult_le_pos; lra|]. now apply exp_le.
      + destruct (corner_high _ _ s _ _ (ln r) Hs (conj R1 R2)) as (w & t & Hw & Ht & K). destruct (CV w t Hw Ht) as (v' & w' & Hv' & Hw' & Ew & Et).
        destruct (EL v' w' Hv' Hw') as (z & Gz & Fz & Bz & _). rewrite Ew, Et in Bz. destruct (IN v' w' z Hv' Hw' Gz Fz) as [_ I1].
        apply Rle_trans with (2 := I1). apply Rle_trans with (2 := Bz). apply Rmult_le_compat_l; [apply Rmult_le_pos; lra|]. now apply exp_le.
    - exists (B2R v1), (B2R w1). split; [now apply (ael_real x v1)|]. split; [now apply (ael_real y w1)|]. rewrite V1. exact B1.
    - exists (B2R v2), (B2R w2). split; [now apply (ael_real x v2)|]. split; [now apply (ael_real y w2)|]. rewrite V2. exact B2.
  Qed.
End Near.
