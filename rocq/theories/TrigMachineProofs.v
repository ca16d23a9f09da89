(** Machine intervals of cos and sin (MachineSpec.v). *)
From Coq Require Import Reals ZArith Bool Lra Psatz Lia.
From Flocq Require Import Core BinarySingleNaN Relative Plus_error Mult_error.
From Verif Require Import Outcome SetModel MathModel FloatMath MathSpec FloatMathProofs Spec Num NumLaws IntervalModel IvlSpec IvlProofs XReal FloatNum FloatProofs
  MathProofs WrapProofs TrigProofs RoundSpec RoundProofs MachineSpec NumericFacts.
Open Scope R_scope.

(** ** Real numbers *)
Lemma sin_abs x : Rabs (sin x) <= Rabs x.
Proof.
  assert (P : forall y, 0 < y -> Rabs (sin y) <= y).
  { intros y H. pose proof (sin_lt_x y H). apply Rabs_le. split; [|lra].
    destruct (Rle_or_lt y PI) as [K|K]; [pose proof (sin_ge_0 y ltac:(lra) K); lra|]. pose proof (SIN_bound y). pose proof pi_bounds. lra. }
  destruct (Rtotal_order x 0) as [H|[->|H]].
  - rewrite <- (Rabs_Ropp x), <- (Rabs_Ropp (sin x)), <- sin_neg, (Rabs_pos_eq (- x)) by lra. apply P. lra.
  - rewrite sin_0. lra.
  - rewrite (Rabs_pos_eq x) by lra. now apply P.
Qed.
Lemma cos_lipschitz x y : Rabs (cos x - cos y) <= Rabs (x - y).
Proof.
  rewrite form2, !Rabs_mult. replace (Rabs (-2)) with 2 by (rewrite Rabs_left; lra).
  pose proof (sin_abs ((x - y) / 2)) as H. pose proof (SIN_bound ((x + y) / 2)) as K.
  assert (Rabs (sin ((x + y) / 2)) <= 1) by (apply Rabs_le; lra).
  unfold Rdiv at 2 in H. rewrite Rabs_mult, (Rabs_pos_eq (/ 2)) in H by lra. pose proof (Rabs_pos (sin ((x - y) / 2))). nra.
Qed.
Definition clamp (a b x : R) : R := Rmax a (Rmin b x).
Lemma clamp_in a b x : a <= b -> a <= clamp a b x <= b.
Proof. unfold clamp, Rmax, Rmin. intros. repeat destruct Rle_dec; lra. Qed.
Lemma clamp_near a b x e : a <= b -> a - e <= x <= b + e -> 0 <= e -> Rabs (clamp a b x - x) <= e.
Proof. unfold clamp, Rmax, Rmin. intros. apply Rabs_le. repeat destruct Rle_dec; lra. Qed.

(** The range over [a, b] and over an interval that agrees with [a, b] + t up to [E]. *)
Lemma range_near f t E a b a' b' L U : (forall x y, Rabs (f x - f y) <= Rabs (x - y)) -> (forall x, f (x + t) = f x) -> a <= b -> a' <= b' ->
  Rabs (a' - (a + t)) <= E -> Rabs (b' - (b + t)) <= E -> range f a' b' L U ->
  (forall x, a <= x <= b -> L - E <= f x <= U + E) /\ (exists x, a <= x <= b /\ Rabs (f x - L) <= E) /\ (exists x, a <= x <= b /\ Rabs (f x - U) <= E).
Proof.
  intros Lip Per Hab Hab' Ha Hb (R1 & (x1 & X1 & <-) & (x2 & X2 & <-)). apply Rabs_le_inv in Ha, Hb.
  assert (HE : 0 <= E) by lra.
  assert (Back : forall x', a' <= x' <= b' -> exists x, a <= x <= b /\ Rabs (f x - f x') <= E).
  { intros x' Hx'. exists (clamp a b (x' - t)). split; [now apply clamp_in|]. rewrite <- (Per (clamp a b (x' - t))).
    eapply Rle_trans; [apply Lip|]. replace (clamp a b (x' - t) + t - x') with (clamp a b (x' - t) - (x' - t)) by ring. apply clamp_near; lra. }
  split; [|split; now apply Back].
  intros x Hx. pose proof (clamp_in a' b' (x + t) Hab') as C. pose proof (R1 _ C) as K. pose proof (Lip (clamp a' b' (x + t)) (x + t)) as Q.
  pose proof (clamp_near a' b' (x + t) E Hab' ltac:(lra) HE) as N. rewrite (Per x) in Q. assert (Q' : Rabs (f (clamp a' b' (x + t)) - f x) <= E) by lra.
  apply Rabs_le_inv in Q'. lra.
Qed.
Lemma near_weaken f D E a b L U L' U' : (forall x, a <= x <= b -> L - E <= f x <= U + E) /\ (exists x, a <= x <= b /\ Rabs (f x - L) <= E) /\ (exists x, a <= x <= b /\ Rabs (f x - U) <= E) ->
  Rabs (L' - L) <= D -> Rabs (U' - U) <= D ->
  (forall x, a <= x <= b -> L' - (D + E) <= f x <= U' + (D + E)) /\ (exists x, a <= x <= b /\ Rabs (f x - L') <= D + E) /\ (exists x, a <= x <= b /\ Rabs (f x - U') <= D + E).
Proof.
  intros (R1 & (x1 & X1 & E1) & (x2 & X2 & E2)) HL HU. apply Rabs_le_inv in HL, HU, E1, E2. split; [|split].
  - intros x Hx. pose proof (R1 x Hx). lra.
  - exists x1. split; [auto|]. apply Rabs_le. lra.
  - exists x2. split; [auto|]. apply Rabs_le. lra.
Qed.
Lemma rmin_near a b a' b' D : Rabs (a' - a) <= D -> Rabs (b' - b) <= D -> Rabs (Rmin a' b' - Rmin a b) <= D.
Proof. intros H1 H2. apply Rabs_le_inv in H1, H2. apply Rabs_le. unfold Rmin. repeat destruct Rle_dec; lra. Qed.
Lemma rmax_near a b a' b' D : Rabs (a' - a) <= D -> Rabs (b' - b) <= D -> Rabs (Rmax a' b' - Rmax a b) <= D.
Proof. intros H1 H2. apply Rabs_le_inv in H1, H2. apply Rabs_le. unfold Rmax. repeat destruct Rle_dec; lra. Qed.

(** The case distinction of cos with end points [l], [h], with [p] in place of pi and computed cosines [cl], [ch]. *)
Section Cases.
  Variables (l h p cl ch n s eps : R).
  Hypothesis (Hl : - p <= l <= p) (Hp : Rabs (p - PI) <= n) (Hlh : l <= h + s) (Hs : 0 <= s) (Hn : n <= 0.5).
  Hypothesis (Cl : Rabs (cl - cos l) <= eps) (Ch : - p - s <= h <= 2 * p -> Rabs (ch - cos h) <= eps).
  Let D := s + 2 * n.
  (** [L], [U] are the exact range over an interval [l', h'] close to [l, h], up to [eps + D]. *)
  Definition close L U := exists l' h' L0 U0, l' <= h' /\ Rabs (l' - l) <= D /\ Rabs (h' - h) <= D /\ range cos l' h' L0 U0
    /\ Rabs (L - L0) <= eps + D /\ Rabs (U - U0) <= eps + D.
  Let P := PI_RGT_0.
  Let Hn0 : 0 <= n. Proof. pose proof (Rabs_pos (p - PI)). lra. Qed.
  Let Heps : 0 <= eps. Proof. pose proof (Rabs_pos (cl - cos l)). lra. Qed.
  Let Hp' : - n <= p - PI <= n. Proof. now apply Rabs_le_inv. Qed.
  Lemma end_near v c v' : Rabs (c - cos v) <= eps -> Rabs (v' - v) <= D -> Rabs (c - cos v') <= eps + D.
  Proof.
    intros H1 H2. replace (c - cos v') with ((c - cos v) + (cos v - cos v')) by ring. eapply Rle_trans; [apply Rabs_triang|].
    apply Rplus_le_compat; [exact H1|]. eapply Rle_trans; [apply cos_lipschitz|]. rewrite Rabs_minus_sym. exact H2.
  Qed.
  Lemma one_near x : Rabs (x - x) <= eps + D.
  Proof. replace (x - x) with 0 by ring. rewrite Rabs_R0. unfold D. lra. Qed.
  Ltac dist := unfold D; apply Rabs_le; unfold Rmax, Rmin; repeat destruct Rle_dec; lra.
  Ltac ineq := unfold Rmax, Rmin; repeat destruct Rle_dec; lra.
  Ltac six := split; [|split; [|split; [|split; [|split]]]].
  Lemma case1 : l <= 0 -> h <= 0 -> close (Rmin cl ch) (Rmax cl ch).
  Proof.
    intros L0 H0. set (l' := Rmin 0 (Rmax l (- PI))). set (h' := Rmax h l').
    assert (A : Rabs (l' - l) <= D) by (unfold l'; dist). assert (B : Rabs (h' - h) <= D) by (unfold h', l'; dist).
    assert (I : - PI <= l' /\ l' <= h' /\ h' <= 0) by (unfold h', l'; ineq).
    assert (R : range cos l' h' (cos l') (cos h')) by (apply range_inc; [lra|]; intros; apply cos_inc_npi_0; lra).
    assert (Q : Rabs (ch - cos h) <= eps) by (apply Ch; lra).
    exists l', h', (cos l'), (cos h'). pose proof (range_le _ _ _ _ _ R) as O. six; try assumption; try lra.
    - replace (cos l') with (Rmin (cos l') (cos h')) by (now apply Rmin_left). apply rmin_near; eapply end_near; eassumption.
    - replace (cos h') with (Rmax (cos l') (cos h')) by (now apply Rmax_right). apply rmax_near; eapply end_near; eassumption.
  Qed.
  Lemma case2 : l <= 0 -> 0 < h -> h <= p -> close (Rmin cl ch) 1.
  Proof.
    intros L0 H0 H1. set (l' := Rmin 0 (Rmax l (- PI))). set (h' := Rmin h PI).
    assert (A : Rabs (l' - l) <= D) by (unfold l'; dist). assert (B : Rabs (h' - h) <= D) by (unfold h'; dist).
    assert (I1 : - PI <= l' <= 0) by (unfold l'; ineq). assert (I2 : 0 <= h' <= PI) by (unfold h'; ineq).
    assert (R1 : range cos l' 0 (cos l') (cos 0)) by (apply range_inc; [lra|]; intros; apply cos_inc_npi_0; lra).
    assert (R2 : range cos 0 h' (cos h') (cos 0)) by (apply range_dec; [lra|]; intros; apply cos_dec_0_pi; lra).
    pose proof (range_join cos l' 0 h' _ _ _ _ ltac:(lra) R1 R2) as R. rewrite cos_0 in R. rewrite Rmax_left in R by lra.
    assert (Q : Rabs (ch - cos h) <= eps) by (apply Ch; lra).
    exists l', h', (Rmin (cos l') (cos h')), 1. six; try assumption; [lra| |apply one_near].
    apply rmin_near; eapply end_near; eassumption.
  Qed.
  Lemma case3 : l <= 0 -> p < h -> close (-1) 1.
  Proof.
    intros L0 H0. set (l' := Rmin 0 l). set (h' := Rmax h PI).
    assert (A : Rabs (l' - l) <= D) by (unfold l'; dist). assert (B : Rabs (h' - h) <= D) by (unfold h'; dist).
    exists l', h', (-1), 1. six; try assumption; try apply one_near; [unfold l', h'; ineq|]. split; [intros; apply COS_bound|split].
    - exists PI. split; [unfold l', h'; ineq|apply cos_PI].
    - exists 0. split; [unfold l', h'; ineq|apply cos_0].
  Qed.
  Lemma case4 : 0 < l -> h <= p -> close (Rmin ch cl) (Rmax ch cl).
  Proof.
    intros L0 H0. set (l' := Rmin l PI). set (h' := Rmin PI (Rmax h l')).
    assert (A : Rabs (l' - l) <= D) by (unfold l'; dist). assert (B : Rabs (h' - h) <= D) by (unfold h', l'; dist).
    assert (I : 0 <= l' /\ l' <= h' /\ h' <= PI) by (unfold h', l'; ineq).
    assert (R : range cos l' h' (cos h') (cos l')) by (apply range_dec; [lra|]; intros; apply cos_dec_0_pi; lra).
    assert (Q : Rabs (ch - cos h) <= eps) by (apply Ch; lra).
    exists l', h', (cos h'), (cos l'). pose proof (range_le _ _ _ _ _ R) as O. six; try assumption; try lra.
    - replace (cos h') with (Rmin (cos h') (cos l')) by (now apply Rmin_left). apply rmin_near; eapply end_near; eassumption.
    - replace (cos l') with (Rmax (cos h') (cos l')) by (now apply Rmax_right). apply rmax_near; eapply end_near; eassumption.
  Qed.
  Lemma case5 : 0 < l -> p < h -> h <= 2 * p -> close (-1) (Rmax cl ch).
  Proof.
    intros L0 H0 H1. set (l' := Rmin l PI). set (h' := Rmin (2 * PI) (Rmax h PI)).
    assert (A : Rabs (l' - l) <= D) by (unfold l'; dist). assert (B : Rabs (h' - h) <= D) by (unfold h'; dist).
    assert (I1 : 0 <= l' <= PI) by (unfold l'; ineq). assert (I2 : PI <= h' <= 2 * PI) by (unfold h'; ineq).
    assert (R1 : range cos l' PI (cos PI) (cos l')) by (apply range_dec; [lra|]; intros; apply cos_dec_0_pi; lra).
    assert (R2 : range cos PI h' (cos PI) (cos h')) by (apply range_inc; [lra|]; intros; apply cos_inc_pi_2pi; lra).
    pose proof (range_join cos l' PI h' _ _ _ _ ltac:(lra) R1 R2) as R. rewrite cos_PI in R. rewrite Rmin_left in R by lra.
    assert (Q : Rabs (ch - cos h) <= eps) by (apply Ch; lra).
    exists l', h', (-1), (Rmax (cos l') (cos h')). six; try assumption; [lra|apply one_near|].
    apply rmax_near; eapply end_near; eassumption.
  Qed.
  Lemma case6 : 0 < l -> 2 * p < h -> close (-1) 1.
  Proof.
    intros L0 H0. set (l' := Rmin l PI). set (h' := Rmax h (2 * PI)).
    assert (A : Rabs (l' - l) <= D) by (unfold l'; dist). assert (B : Rabs (h' - h) <= D) by (unfold h'; dist).
    exists l', h', (-1), 1. six; try assumption; try apply one_near; [unfold l', h'; ineq|]. split; [intros; apply COS_bound|split].
    - exists PI. split; [unfold l', h'; ineq|apply cos_PI].
    - exists (2 * PI). split; [unfold l', h'; ineq|apply cos_2PI].
  Qed.
End Cases.

(** ** Machine numbers *)
Section Float.
  Context (prec emax : Z) (Hp : Prec_gt_0 prec) (He : Prec_lt_emax prec emax).
  Hypothesis (Prec4 : (4 <= prec)%Z).
  Existing Instance Hp.
  Existing Instance He.
  Notation F := (binary_float prec emax).
  Notation FN := (float_num prec emax Hp He).
  Notation fexp := (SpecFloat.fexp prec emax).
  Notation rnd := (round radix2 fexp ZnearestE).
  Notation f2x := (f2x prec emax).
  Notation rd := (rd prec emax).
  Notation u := (bpow radix2 (- prec)).
  Implicit Types (x y : F).
  Local Instance fexp_valid3 : Valid_exp fexp.
  Proof. unfold SpecFloat.fexp. apply FLT_exp_valid. exact Hp. Qed.

  Lemma u_pos : 0 < u. Proof. apply bpow_gt_0. Qed.
  Lemma u_small : u <= / 16.
  Proof. replace (/ 16) with (bpow radix2 (-4)) by (cbn; lra). apply bpow_le. lia. Qed.
  Lemma emax5 : (5 <= emax)%Z. Proof. pose proof He as H. unfold Prec_lt_emax in H. lia. Qed.
  Lemma big_enough : 16 <= bpow radix2 (emax - 1).
  Proof. replace 16 with (bpow radix2 4) by (cbn; lra). apply bpow_le. pose proof emax5. lia. Qed.
  Lemma add_real x y : is_finite x = true -> is_finite y = true -> Rabs (B2R x + B2R y) <= bpow radix2 (emax - 1) ->
    is_finite (Bplus mode_NE x y) = true /\ B2R (Bplus mode_NE x y) = rnd (B2R x + B2R y) /\ Rabs (B2R (Bplus mode_NE x y) - (B2R x + B2R y)) <= u * Rabs (B2R x + B2R y).
  Proof.
    intros Fx Fy H. pose proof (plus_x prec emax Hp He x y) as E. rewrite (f2x_finite _ _ _ Fx), (f2x_finite _ _ _ Fy) in E. cbn in E.
    rewrite (rd_small prec emax Hp He _ (emax - 1) (or_introl eq_refl) H) in E. apply f2x_fin in E as [E1 E2]. split; [exact E1|]. split; [exact E2|]. rewrite E2.
    destruct (FLT_plus_error_N_ex radix2 (3 - emax - prec) prec (fun z : Z => negb (Z.even z)) (B2R x) (B2R y)) as (eps & Be & Ee); try apply generic_format_B2R.
    change (round radix2 (FLT_exp (3 - emax - prec) prec) (Znearest (fun z : Z => negb (Z.even z)))) with rnd in Ee. rewrite Ee.
    replace ((B2R x + B2R y) * (1 + eps) - (B2R x + B2R y)) with (eps * (B2R x + B2R y)) by ring. rewrite Rabs_mult. apply Rmult_le_compat_r; [apply Rabs_pos|].
    eapply Rle_trans; [exact Be|]. unfold u_ro. replace (/ 2 * bpow radix2 (- prec + 1)) with u by (rewrite bpow_plus_1; change (IZR radix2) with 2; lra).
    pose proof u_pos. apply Rmult_le_reg_r with (1 + u); [lra|]. unfold Rdiv. rewrite Rmult_assoc, Rinv_l by lra. nra.
  Qed.
  Lemma minus_plus x y : f2x (Bminus mode_NE x y) = f2x (Bplus mode_NE x (Bopp y)).
  Proof. rewrite (minus_x prec emax Hp He), (plus_x prec emax Hp He), (opp_x prec emax). reflexivity. Qed.
  Lemma sub_real x y : is_finite x = true -> is_finite y = true -> Rabs (B2R x - B2R y) <= bpow radix2 (emax - 1) ->
    is_finite (Bminus mode_NE x y) = true /\ B2R (Bminus mode_NE x y) = rnd (B2R x - B2R y) /\ Rabs (B2R (Bminus mode_NE x y) - (B2R x - B2R y)) <= u * Rabs (B2R x - B2R y).
  Proof.
    intros Fx Fy H. pose proof (add_real x (Bopp y) Fx) as K. rewrite is_finite_Bopp, B2R_Bopp in K. specialize (K Fy H) as (K1 & K2 & K3).
    pose proof (minus_plus x y) as E. rewrite (f2x_finite _ _ _ K1) in E. apply f2x_fin in E as [E1 E2]. rewrite E2. auto.
  Qed.
  Lemma rnd_between a r b : generic_format radix2 fexp a -> generic_format radix2 fexp b -> a <= r <= b -> a <= rnd r <= b.
  Proof. intros Ga Gb [H1 H2]. split; [apply round_ge_generic|apply round_le_generic]; auto with typeclass_instances. Qed.
  Lemma dbl_format r : generic_format radix2 fexp r -> generic_format radix2 fexp (2 * r).
  Proof. intros H. replace (2 * r) with (r * bpow radix2 1) by (cbn; ring). apply (mult_bpow_pos_exact_FLT radix2 (3 - emax - prec) prec); [exact H|lia]. Qed.

  Section Wrap.
    Variables (L : libm F) (p : F) (B : R).
    Hypothesis (Fp : is_finite p = true) (Bp : 1.4 <= B2R p <= 3.35) (HB : 0 <= B <= bpow radix2 (emax - 4)).
    Let HB' : B + 8 <= bpow radix2 (emax - 1).
    Proof.
      pose proof big_enough as G. replace (emax - 1)%Z with (emax - 4 + 3)%Z in * by ring. rewrite bpow_plus in *. change (bpow radix2 3) with 8 in *. lra.
    Qed.
    Lemma wrap_near (v : FN) : is_finite (v : F) = true -> Rabs (B2R v) <= B ->
      exists (r : FN) (k : Z), wraparound (float_math prec emax Hp He L) v (Bopp p : FN) (p : FN) = Ret r /\ is_finite (r : F) = true /\ - B2R p <= B2R r <= B2R p
        /\ Rabs (B2R r - (B2R v + IZR k * (2 * B2R p))) <= u * (B + 6 * B2R p).
    Proof.
      intros Fv Bv. set (q := B2R p) in *. pose proof u_pos as U0. pose proof u_small as U1. apply Rabs_le_inv in Bv. pose proof big_enough as BE.
      unfold wraparound. assert (Lt : o_lt (Bopp p : FN) (p : FN) = true).
      { cbn. rewrite Bltb_correct by (rewrite ?is_finite_Bopp; exact Fp). rewrite B2R_Bopp. apply Rlt_bool_true. fold q. lra. }
      rewrite Lt. cbn [expects bind n_sub n_add float_num float_math m_fmod].
      assert (Fo : is_finite (Bopp p) = true) by (now rewrite is_finite_Bopp).
      set (range := Bminus mode_NE p (Bopp p)).
      assert (Gp : generic_format radix2 fexp q) by apply generic_format_B2R.
      destruct (sub_real p (Bopp p) Fp Fo) as (Fr & Er & _). { rewrite B2R_Bopp. fold q. apply Rabs_le. lra. }
      fold range in Fr, Er. rewrite B2R_Bopp in Er. fold q in Er. replace (q - - q) with (2 * q) in Er by ring.
      rewrite round_generic in Er by (auto using dbl_format with typeclass_instances).
      set (d := Bminus mode_NE (v : F) (Bopp p)).
      destruct (sub_real v (Bopp p) Fv Fo) as (Fd & _ & Ed). { rewrite B2R_Bopp. fold q. apply Rabs_le. lra. }
      fold d in Fd, Ed. rewrite B2R_Bopp in Ed. fold q in Ed.
      assert (Ed' : Rabs (B2R d - (B2R v + q)) <= u * (B + q)).
      { replace (B2R v + q) with (B2R v - - q) by ring. eapply Rle_trans; [exact Ed|]. apply Rmult_le_compat_l; [lra|]. apply Rabs_le. lra. }
      destruct (fmod_x prec emax Hp He d range Fd Fr ltac:(lra)) as [Fm Em]. set (m := Bfmod prec emax Hp He d range) in *. rewrite Er in Em.
      destruct (Rfmod_cong (B2R d) (2 * q)) as [k1 K1]. pose proof (Rfmod_gt (B2R d) (2 * q) ltac:(lra)) as Bm. rewrite <- Em in Bm, K1.
      destruct (add_real range m Fr Fm) as (Fs & Es0 & Es). { rewrite Er. apply Rabs_le. lra. }
      set (s := Bplus mode_NE range m) in *. rewrite Er in Es, Es0.
      assert (Es' : Rabs (B2R s - (2 * q + B2R m)) <= u * (4 * q)) by (eapply Rle_trans; [exact Es|]; apply Rmult_le_compat_l; [lra|]; apply Rabs_le; lra).
      assert (Ps : 0 <= B2R s) by (rewrite Es0, <- (rnd_0 prec emax); apply round_le; auto with typeclass_instances; lra).
      destruct (fmod_x prec emax Hp He s range Fs Fr ltac:(lra)) as [Fw Ew]. set (w := Bfmod prec emax Hp He s range) in *. rewrite Er in Ew.
      destruct (Rfmod_cong (B2R s) (2 * q)) as [k2 K2]. pose proof (Rfmod_pos (B2R s) (2 * q) ltac:(lra) Ps) as Bw. rewrite <- Ew in Bw, K2.
      destruct (add_real (Bopp p) w Fo Fw) as (Fl & El0 & El). { rewrite B2R_Bopp. fold q. apply Rabs_le. lra. }
      set (l := Bplus mode_NE (Bopp p) w) in *. rewrite B2R_Bopp in El, El0. fold q in El, El0.
      assert (El' : Rabs (B2R l - (- q + B2R w)) <= u * q) by (eapply Rle_trans; [exact El|]; apply Rmult_le_compat_l; [lra|]; apply Rabs_le; lra).
      exists l, (k1 + k2 + 1)%Z. split; [reflexivity|]. split; [exact Fl|]. split.
      - rewrite El0. apply rnd_between; [now apply generic_format_opp|exact Gp|lra].
      - apply Rabs_le_inv in Ed', Es', El'. apply Rabs_le. rewrite !plus_IZR. lra.
    Qed.
  End Wrap.

  Lemma rn_rnd r : rn prec emax r = rnd r. Proof. reflexivity. Qed.
  Lemma pi_near (p : F) : nearest PI p -> is_finite p = true /\ B2R p = rnd PI /\ Rabs (B2R p - PI) <= u * PI.
  Proof.
    intros [H _]. pose proof pi_bounds as P. pose proof emax5 as E5.
    assert (A : Rabs (rnd PI - PI) <= u * PI).
    { rewrite <- (Rabs_pos_eq PI) at 3 by lra. replace u with (/ 2 * bpow radix2 (- prec + 1)) by (rewrite bpow_plus_1; change (IZR radix2) with 2; lra).
      apply (relative_error_N_FLT radix2 (3 - emax - prec) prec); [lia|]. rewrite (Rabs_pos_eq PI) by lra. apply Rle_trans with (bpow radix2 0); [apply bpow_le; lia|cbn; lra]. }
    pose proof u_small as U. pose proof u_pos. assert (S : Rabs (rnd PI) < bpow radix2 emax).
    { apply Rabs_le_inv in A. apply Rle_lt_trans with 16; [apply Rabs_le; nra|]. eapply Rle_lt_trans; [apply big_enough|]. apply bpow_lt. lia. }
    rewrite rn_rnd in H. destruct (H S) as [Fp Ep]. rewrite Ep. auto.
  Qed.
  Lemma two_real L : is_finite (m_of_Z (float_math prec emax Hp He L) 2 : F) = true /\ B2R (m_of_Z (float_math prec emax Hp He L) 2 : F) = 2.
  Proof.
    cbn [float_math m_of_Z]. pose proof (binary_normalize_correct prec emax Hp He mode_NE 2 0 false) as C. cbv zeta in C. cbn [round_mode] in C.
    assert (E2 : F2R (Float radix2 2 0) = bpow radix2 1) by (cbn; unfold F2R; cbn; lra). rewrite E2 in C.
    rewrite round_generic in C; [|auto with typeclass_instances|apply generic_format_bpow; unfold SpecFloat.fexp, SpecFloat.emin; pose proof emax5; lia].
    rewrite Rlt_bool_true in C. { destruct C as (C1 & C2 & _). split; [exact C2|]. rewrite C1. reflexivity. }
    rewrite Rabs_pos_eq by apply bpow_ge_0. apply bpow_lt. pose proof emax5. lia.
  Qed.
  Lemma mult_real x y : is_finite x = true -> is_finite y = true -> Rabs (B2R x * B2R y) <= bpow radix2 (emax - 1) ->
    is_finite (Bmult mode_NE x y) = true /\ B2R (Bmult mode_NE x y) = rnd (B2R x * B2R y).
  Proof.
    intros Fx Fy H. pose proof (mult_x prec emax Hp He x y) as E. rewrite (f2x_finite _ _ _ Fx), (f2x_finite _ _ _ Fy) in E. cbn in E.
    rewrite (rd_small prec emax Hp He _ (emax - 1) (or_introl eq_refl) H) in E. now apply f2x_fin in E.
  Qed.
  Lemma div_real x y : is_finite x = true -> is_finite y = true -> B2R y <> 0 -> Rabs (B2R x / B2R y) <= bpow radix2 (emax - 1) ->
    is_finite (Bdiv mode_NE x y) = true /\ B2R (Bdiv mode_NE x y) = rnd (B2R x / B2R y).
  Proof.
    intros Fx Fy Ny H. pose proof (div_x prec emax Hp He x y) as E. rewrite (f2x_finite _ _ _ Fx), (f2x_finite _ _ _ Fy) in E.
    specialize (E ltac:(intros K; now injection K)). cbn in E. rewrite Req_bool_false in E by exact Ny. cbn in E.
    rewrite (rd_small prec emax Hp He _ (emax - 1) (or_introl eq_refl) H) in E. now apply f2x_fin in E.
  Qed.
  Lemma le_real x y : is_finite x = true -> is_finite y = true -> (@o_le FN x y = true /\ B2R x <= B2R y) \/ (@o_le FN x y = false /\ B2R y < B2R x).
  Proof. intros Fx Fy. cbn. rewrite Bleb_correct by assumption. destruct (Rle_bool_spec (B2R x) (B2R y)); auto. Qed.
  Lemma omin_real x y : is_finite x = true -> is_finite y = true -> is_finite (@omin FN x y : F) = true /\ B2R (@omin FN x y : F) = Rmin (B2R x) (B2R y).
  Proof.
    intros Fx Fy. unfold omin. cbn. rewrite Bltb_correct by assumption. destruct (Rlt_bool_spec (B2R y) (B2R x)); split; auto; [now rewrite Rmin_right by lra|now rewrite Rmin_left by lra].
  Qed.
  Lemma omax_real x y : is_finite x = true -> is_finite y = true -> is_finite (@omax FN x y : F) = true /\ B2R (@omax FN x y : F) = Rmax (B2R x) (B2R y).
  Proof.
    intros Fx Fy. unfold omax. cbn. rewrite Bltb_correct by assumption. destruct (Rlt_bool_spec (B2R x) (B2R y)); split; auto; [now rewrite Rmax_right by lra|now rewrite Rmax_left by lra].
  Qed.
  Lemma mk_real x y : is_finite x = true -> is_finite y = true -> B2R x <= B2R y -> @mk FN x y = Ret (Ivl x y).
  Proof. intros Fx Fy H. unfold mk. cbn. rewrite Bltb_correct by assumption. rewrite Rlt_bool_false by exact H. reflexivity. Qed.
  Lemma fub_real x y : is_finite x = true -> is_finite y = true -> @from_unordered_bounds FN x y = Ret (@Ivl FN (@omin FN x y) (@omax FN x y)).
  Proof.
    intros Fx Fy. unfold from_unordered_bounds. destruct (omin_real x y Fx Fy) as [F1 E1], (omax_real x y Fx Fy) as [F2 E2]. apply mk_real; auto.
    rewrite E1, E2. unfold Rmin, Rmax. repeat destruct Rle_dec; lra.
  Qed.
  Lemma one_real : is_finite (@n_one FN : F) = true /\ B2R (@n_one FN : F) = 1.
  Proof. cbn. split; [apply is_finite_Bone|apply Bone_correct]. Qed.
  Lemma mone_real : is_finite (@n_mone FN : F) = true /\ B2R (@n_mone FN : F) = -1.
  Proof. cbn. rewrite is_finite_Bopp, B2R_Bopp, Bone_correct. split; [apply is_finite_Bone|lra]. Qed.

  Section Cos.
    Variables (L : libm F) (eps B : R) (dbg : bool).
    Hypothesis (Pi : nearest PI (l_pi L)) (Cos : @cos_within prec emax Hp He eps (l_cos L)) (HB : 0 <= B <= bpow radix2 (prec - 4)).
    Notation M := (float_math prec emax Hp He L).
    Lemma B_u : B * u <= / 16.
    Proof.
      pose proof u_pos. replace (/ 16) with (bpow radix2 (prec - 4) * u); [apply Rmult_le_compat_r; lra|]. rewrite <- bpow_plus. replace (prec - 4 + - prec)%Z with (-4)%Z by ring. cbn. lra.
    Qed.
    Lemma B_emax : B <= bpow radix2 (emax - 4).
    Proof. eapply Rle_trans; [apply HB|]. apply bpow_le. pose proof He as H. unfold Prec_lt_emax in H. lia. Qed.
    Definition near_cos (X : ivl FN) (Z : ivl FN) (d : R) : Prop :=
      is_finite (lo Z : F) = true /\ is_finite (hi Z : F) = true /\ -1 <= B2R (lo Z) /\ B2R (hi Z) <= 1 /\ B2R (lo Z) <= B2R (hi Z)
      /\ (forall x : R, B2R (lo X) <= x <= B2R (hi X) -> B2R (lo Z) - d <= cos x <= B2R (hi Z) + d)
      /\ (exists x : R, B2R (lo X) <= x <= B2R (hi X) /\ Rabs (cos x - B2R (lo Z)) <= d) /\ (exists x : R, B2R (lo X) <= x <= B2R (hi X) /\ Rabs (cos x - B2R (hi Z)) <= d).
    Lemma cos_near (X : ivl FN) : finite_arg (Iv X) -> bounded_by B (Iv X) -> exists Z, icos M dbg X = Ret Z /\ near_cos X Z (eps + u * (12 * B + 64)).
    Proof.
      intros HX [Blo Bhi]. pose proof HX as (Flo & Fhi & Ord). cbn [alower aupper] in *.
      pose proof u_pos as U0. pose proof u_small as U1. pose proof B_u as BU. pose proof B_emax as BE. pose proof pi_bounds as PB. pose proof big_enough as G16.
      destruct (pi_near _ Pi) as (Fp & _ & Np). set (p := l_pi L) in *. pose proof (Rabs_le_inv _ _ Np) as Np'.
      assert (M4 : 0 <= u * PI <= PI / 16 /\ u * PI <= 3.1416 * u) by (clear - U0 U1 PB; nra).
      assert (Bp : 2.9 <= B2R p <= 3.35) by lra. set (q := B2R p) in *.
      assert (M1 : 0 <= u * B <= / 16 /\ u * B <= B / 16) by (clear - U0 U1 BU HB; nra).
      assert (M2 : 0 <= u * q <= 3.35 * u) by (clear - U0 Bp; nra). assert (M3 : u * q <= q / 16) by (clear - U1 Bp; nra).
      assert (G8 : bpow radix2 (emax - 1) = 8 * bpow radix2 (emax - 4)).
      { replace (emax - 1)%Z with (emax - 4 + 3)%Z by ring. rewrite bpow_plus. change (bpow radix2 3) with 8. ring. }
      unfold icos. rewrite (dbg_assigned (denotes_ord (float_denotes prec emax Hp He))) by (now apply (finite_aproper prec emax Hp He (Iv X))).
      cbn [bind n_neg float_num m_pi float_math]. fold p.
      assert (Bp' : 1.4 <= B2R p <= 3.35) by (fold q; lra).
      destruct (wrap_near L p B Fp Bp' (conj (proj1 HB) BE) (lo X) Flo Blo) as (l & k & -> & Fl & Bl & Nl). cbn [bind n_sub n_add n_mul float_num].
      fold q in Bl, Nl. apply Rabs_le_inv in Blo, Bhi.
      destruct (sub_real l (lo X) Fl Flo) as (Fd & _ & Ed). { apply Rabs_le. lra. }
      set (d := Bminus mode_NE (l : F) (lo X : F)) in *.
      assert (Ed' : Rabs (B2R d - (B2R l - B2R (lo X))) <= u * (B + q)) by (eapply Rle_trans; [exact Ed|]; apply Rmult_le_compat_l; [lra|]; apply Rabs_le; lra).
      clear Ed. pose proof (Rabs_le_inv _ _ Ed') as Ed. assert (Bd : Rabs (B2R d) <= 17 / 16 * (B + q)) by (apply Rabs_le; lra). apply Rabs_le_inv in Bd.
      destruct (add_real (hi X) d Fhi Fd) as (Fh & _ & Eh). { apply Rabs_le. lra. }
      set (h := Bplus mode_NE (hi X : F) d) in *.
      assert (Eh' : Rabs (B2R h - (B2R (hi X) + B2R d)) <= u * (B + 17 / 16 * (B + q))) by (eapply Rle_trans; [exact Eh|]; apply Rmult_le_compat_l; [lra|]; apply Rabs_le; lra).
      clear Eh. pose proof (Rabs_le_inv _ _ Eh') as Eh.
      (* the shift by a multiple of 2 pi *)
      pose proof (Rabs_le_inv _ _ Nl) as Nl'.
      assert (Kq : Rabs (IZR k) * (2 * q) <= q + B + u * (B + 6 * q)).
      { rewrite <- (Rabs_pos_eq (2 * q)), <- Rabs_mult by lra. apply Rabs_le. lra. }
      assert (Kp : Rabs (IZR k * (2 * q) - IZR k * (2 * PI)) <= u * (16 / 15 * (q + B + u * (B + 6 * q)))).
      { replace (IZR k * (2 * q) - IZR k * (2 * PI)) with (IZR k * 2 * (q - PI)) by ring. rewrite !Rabs_mult, (Rabs_pos_eq 2) by lra. pose proof (Rabs_pos (IZR k)) as Kpos.
        apply Rle_trans with (Rabs (IZR k) * 2 * (u * PI)); [apply Rmult_le_compat_l; [lra|exact Np]|].
        assert (PI <= 16 / 15 * q) by lra. apply Rle_trans with (u * (16 / 15 * (Rabs (IZR k) * (2 * q)))); [|apply Rmult_le_compat_l; lra].
        replace (Rabs (IZR k) * 2 * (u * PI)) with (u * (Rabs (IZR k) * 2 * PI)) by ring. apply Rmult_le_compat_l; [lra|]. rewrite Rmult_assoc. replace (16 / 15 * (Rabs (IZR k) * (2 * q))) with (Rabs (IZR k) * (16 / 15 * (2 * q))) by ring. apply Rmult_le_compat_l; lra. }
      assert (Kp' : Rabs (IZR k * (2 * q) - IZR k * (2 * PI)) <= u * (1.1334 * B + 5)).
      { eapply Rle_trans; [exact Kp|]. apply Rmult_le_compat_l; [lra|]. lra. }
      apply Rabs_le_inv in Kp'. set (t := IZR k * (2 * PI)) in *.
      assert (Tl : Rabs (B2R l - (B2R (lo X) + t)) <= u * (2.14 * B + 26)) by (apply Rabs_le; lra).
      pose proof (Rabs_le_inv _ _ Tl) as Tl'.
      assert (Th : Rabs (B2R h - (B2R (hi X) + t)) <= u * (5.21 * B + 33)) by (apply Rabs_le; lra).
      set (s := u * (3.1 * B + 7)). assert (Hs : 0 <= s <= 1) by (unfold s; lra).
      assert (Hlh : B2R l <= B2R h + s) by (unfold s; lra).
      assert (Hn : u * PI <= 0.5) by lra.
      (* the computed cosines *)
      destruct (Cos l Fl ltac:(apply Rabs_le; lra)) as (Fcl & Bcl & Ncl).
      assert (Cosh : - q - s <= B2R h <= 2 * q -> is_finite (l_cos L h) = true /\ Rabs (B2R (l_cos L h)) <= 1 /\ Rabs (B2R (l_cos L h) - cos (B2R h)) <= eps)
        by (intros K; apply (Cos h Fh); apply Rabs_le; lra).
      unfold scos. cbn [bind m_cos float_math]. set (cl := l_cos L l) in *. set (ch := l_cos L h) in *.
      assert (Hch : - q - s <= B2R h <= 2 * q -> Rabs (B2R ch - cos (B2R h)) <= eps) by (intros K; apply Cosh; exact K).
      assert (Fin : forall Zl Zh : F, is_finite Zl = true -> is_finite Zh = true -> -1 <= B2R Zl -> B2R Zl <= B2R Zh -> B2R Zh <= 1 ->
        close (B2R l) (B2R h) (u * PI) s eps (B2R Zl) (B2R Zh) -> near_cos X (Ivl Zl Zh : ivl FN) (eps + u * (12 * B + 64))).
      { intros Zl Zh F1 F2 I1 I2 I3 (l' & h' & L0 & U0' & O & A1 & A2 & R & N1 & N2). unfold near_cos. cbn [lo hi].
        do 5 (split; [assumption|]).
        pose proof (range_near cos t (s + 2 * (u * PI) + u * (5.21 * B + 33)) (B2R (lo X)) (B2R (hi X)) l' h' L0 U0' cos_lipschitz) as RN.
        specialize (RN ltac:(intros; unfold t; apply cos_period_Z) Ord O).
        assert (X1 : Rabs (l' - (B2R (lo X) + t)) <= s + 2 * (u * PI) + u * (5.21 * B + 33)).
        { replace (l' - (B2R (lo X) + t)) with ((l' - B2R l) + (B2R l - (B2R (lo X) + t))) by ring. eapply Rle_trans; [apply Rabs_triang|]. lra. }
        assert (X2 : Rabs (h' - (B2R (hi X) + t)) <= s + 2 * (u * PI) + u * (5.21 * B + 33)).
        { replace (h' - (B2R (hi X) + t)) with ((h' - B2R h) + (B2R h - (B2R (hi X) + t))) by ring. eapply Rle_trans; [apply Rabs_triang|]. lra. }
        specialize (RN X1 X2 R). pose proof (near_weaken _ _ _ _ _ _ _ _ _ RN N1 N2) as (W1 & (x1 & I & W2) & (x2 & J & W3)).
        assert (Tot : eps + (s + 2 * (u * PI)) + (s + 2 * (u * PI) + u * (5.21 * B + 33)) <= eps + u * (12 * B + 64)) by (unfold s; lra).
        split; [intros x Hx; specialize (W1 x Hx); lra|]. split; [exists x1|exists x2]; split; auto; lra. }
      destruct (two_real L) as [F2 E2]. cbn [float_math m_of_Z] in F2, E2.
      destruct (mult_real _ p F2 Fp) as [Fpi2 Epi2]. { rewrite E2. fold q. apply Rabs_le. lra. }
      rewrite E2 in Epi2. fold q in Epi2. rewrite round_generic in Epi2 by (auto with typeclass_instances; apply dbl_format, generic_format_B2R).
      cbn [m_of_Z float_math]. set (pi2 := Bmult mode_NE _ p) in *.
      assert (F0 : is_finite (@n_zero FN : F) = true) by reflexivity. assert (E0 : B2R (@n_zero FN : F) = 0) by reflexivity.
      destruct one_real as [F1 E1], mone_real as [Fm1 Em1].
      apply Rabs_le_inv in Bcl.
      assert (Cch : - q - s <= B2R h <= 2 * q -> -1 <= B2R ch <= 1 /\ is_finite ch = true) by (intros K; destruct (Cosh K) as (? & K2 & _); apply Rabs_le_inv in K2; split; auto).
      destruct (le_real l (@n_zero FN) Fl F0) as [[-> L0]|[-> L0]]; rewrite E0 in L0.
      - destruct (le_real h (@n_zero FN) Fh F0) as [[-> H0]|[-> H0]]; rewrite E0 in H0.
        + destruct Cch as [Bch Fch]; [lra|]. rewrite (fub_real cl ch Fcl Fch). eexists. split; [reflexivity|].
          destruct (omin_real cl ch Fcl Fch) as [G1 E3], (omax_real cl ch Fcl Fch) as [G2 E4].
          apply Fin; auto; rewrite ?E3, ?E4; try (unfold Rmin, Rmax; repeat destruct Rle_dec; lra). apply (case1 _ _ q); auto; lra.
        + destruct (le_real h p Fh Fp) as [[-> H1]|[-> H1]]; fold q in H1.
          * destruct Cch as [Bch Fch]; [lra|]. destruct (omin_real cl ch Fcl Fch) as [G1 E3].
            rewrite mk_real; auto; [|rewrite E3, E1; unfold Rmin; destruct Rle_dec; lra]. eexists. split; [reflexivity|].
            apply Fin; auto; rewrite ?E3, ?E1; try lra; try (unfold Rmin; destruct Rle_dec; lra). apply (case2 _ _ q); auto; lra.
          * rewrite mk_real; auto; [|lra]. eexists. split; [reflexivity|]. apply Fin; auto; rewrite ?Em1, ?E1; try lra. apply (case3 _ _ q (B2R cl)); auto; lra.
      - destruct (le_real h p Fh Fp) as [[-> H1]|[-> H1]]; fold q in H1.
        + destruct Cch as [Bch Fch]; [lra|]. rewrite (fub_real ch cl Fch Fcl). eexists. split; [reflexivity|].
          destruct (omin_real ch cl Fch Fcl) as [G1 E3], (omax_real ch cl Fch Fcl) as [G2 E4].
          apply Fin; auto; rewrite ?E3, ?E4; try (unfold Rmin, Rmax; repeat destruct Rle_dec; lra). apply (case4 _ _ q); auto; lra.
        + destruct (le_real h pi2 Fh Fpi2) as [[-> H2]|[-> H2]]; rewrite Epi2 in H2.
          * destruct Cch as [Bch Fch]; [lra|]. destruct (omax_real cl ch Fcl Fch) as [G1 E3].
            rewrite mk_real; auto; [|rewrite E3, Em1; unfold Rmax; destruct Rle_dec; lra]. eexists. split; [reflexivity|].
            apply Fin; auto; rewrite ?E3, ?Em1; try lra; try (unfold Rmax; destruct Rle_dec; lra). apply (case5 _ _ q); auto; lra.
          * rewrite mk_real; auto; [|lra]. eexists. split; [reflexivity|]. apply Fin; auto; rewrite ?Em1, ?E1; try lra. apply (case6 _ _ q (B2R cl)); auto; lra.
    Qed.
  End Cos.
End Float.
