(** Machine intervals of sin; a correctly rounded C library; sin at zero. *)
From Coq Require Import Reals ZArith Bool Lra Psatz Lia.
From Flocq Require Import Core BinarySingleNaN Relative Plus_error Mult_error.
From Verif Require Import Outcome SetModel MathModel FloatMath MathSpec FloatMathProofs Spec Num NumLaws IntervalModel IvlSpec IvlProofs XReal FloatNum FloatProofs
  ValueTypes MathProofs WrapProofs TrigProofs RoundSpec RoundProofs MachineSpec NumericFacts TrigMachineProofs RealMath.
Open Scope R_scope.

Lemma near_shift (f g : R -> R) t e d a b a' b' L U : (forall x y, Rabs (f x - f y) <= Rabs (x - y)) -> (forall x, g x = f (x + t)) -> a <= b -> a' <= b' ->
  Rabs (a' - (a + t)) <= e -> Rabs (b' - (b + t)) <= e ->
  (forall x, a' <= x <= b' -> L - d <= f x <= U + d) /\ (exists x, a' <= x <= b' /\ Rabs (f x - L) <= d) /\ (exists x, a' <= x <= b' /\ Rabs (f x - U) <= d) ->
  (forall x, a <= x <= b -> L - (d + e) <= g x <= U + (d + e)) /\ (exists x, a <= x <= b /\ Rabs (g x - L) <= d + e) /\ (exists x, a <= x <= b /\ Rabs (g x - U) <= d + e).
Proof.
  intros Lip G Hab Hab' Ha Hb (R1 & (x1 & X1 & E1) & (x2 & X2 & E2)). apply Rabs_le_inv in Ha, Hb. assert (He : 0 <= e) by lra.
  assert (Back : forall x' v, a' <= x' <= b' -> Rabs (f x' - v) <= d -> exists x, a <= x <= b /\ Rabs (g x - v) <= d + e).
  { intros x' v Hx' Hv. exists (clamp a b (x' - t)). split; [now apply clamp_in|]. rewrite G.
    replace (f (clamp a b (x' - t) + t) - v) with ((f x' - v) + (f (clamp a b (x' - t) + t) - f x')) by ring. eapply Rle_trans; [apply Rabs_triang|]. apply Rplus_le_compat; [exact Hv|].
    eapply Rle_trans; [apply Lip|]. replace (clamp a b (x' - t) + t - x') with (clamp a b (x' - t) - (x' - t)) by ring. apply clamp_near; lra. }
  split; [|split; [exact (Back x1 L X1 E1)|exact (Back x2 U X2 E2)]].
  intros x Hx. pose proof (R1 _ (clamp_in a' b' (x + t) Hab')) as K. pose proof (Lip (clamp a' b' (x + t)) (x + t)) as Q.
  pose proof (clamp_near a' b' (x + t) e Hab' ltac:(lra) He) as N. rewrite <- (G x) in Q. assert (Q' : Rabs (f (clamp a' b' (x + t)) - g x) <= e) by lra. apply Rabs_le_inv in Q'. lra.
Qed.
Lemma sin_as_cos x : sin x = cos (x + - (PI / 2)).
Proof. rewrite <- (cos_neg (x + _)), <- cos_shift. f_equal. ring. Qed.

Section Float.
  Context (prec emax : Z) (Hp : Prec_gt_0 prec) (He : Prec_lt_emax prec emax).
  Existing Instance Hp.
  Existing Instance He.
  Notation F := (binary_float prec emax).
  Notation FN := (float_num prec emax Hp He).
  Notation fexp := (SpecFloat.fexp prec emax).
  Notation rnd := (round radix2 fexp ZnearestE).
  Notation u := (bpow radix2 (- prec)).
  Local Instance fexp_valid4 : Valid_exp fexp.
  Proof. unfold SpecFloat.fexp. apply FLT_exp_valid. exact Hp. Qed.

  Lemma half_format r : 2 <= r -> (5 <= emax)%Z -> generic_format radix2 fexp r -> generic_format radix2 fexp (r / 2).
  Proof.
    intros H E G. replace (r / 2) with (r * bpow radix2 (-1)) by (cbn; lra). apply (mult_bpow_exact_FLT radix2 (3 - emax - prec) prec); [exact G|].
    assert (2 <= mag radix2 r)%Z; [|lia]. replace 2%Z with (mag radix2 (bpow radix2 1) : Z) by (rewrite mag_bpow; reflexivity). apply mag_le_abs; [apply Rgt_not_eq, bpow_gt_0|].
    rewrite !Rabs_pos_eq; [cbn; lra|lra|apply bpow_ge_0].
  Qed.
  Lemma cos_machine L eps B dbg (X : ivl FN) : (4 <= prec)%Z -> nearest PI (l_pi L) -> @cos_within prec emax Hp He eps (l_cos L) ->
    finite_arg (Iv X) -> bounded_by B (Iv X) -> B <= bpow radix2 (prec - 4) ->
    near_range (eps + (12 * B + 64) * u) cos (icos (float_math prec emax Hp He L) dbg X) (Iv X) /\ inside (-1) 1 (icos (float_math prec emax Hp He L) dbg X).
  Proof.
    intros P4 Pi Cos HX BX HB. assert (B0 : 0 <= B) by (destruct BX as [K _]; eapply Rle_trans; [apply Rabs_pos|exact K]).
    destruct (cos_near prec emax Hp He P4 L eps B dbg Pi Cos (conj B0 HB) X HX BX) as (Z & E & F1 & F2 & I1 & I2 & O & N1 & N2 & N3).
    rewrite (Rmult_comm _ u). split; exists Z; [|auto]. split; [exact E|]. split; [now split|]. split; [exact N1|split; [exact N2|exact N3]].
  Qed.
  Lemma sin_machine L eps B dbg (X : ivl FN) : (6 <= prec)%Z -> nearest PI (l_pi L) -> @cos_within prec emax Hp He eps (l_cos L) ->
    finite_arg (Iv X) -> bounded_by B (Iv X) -> B <= bpow radix2 (prec - 5) ->
    near_range (eps + (14 * B + 90) * u) sin (isin (float_math prec emax Hp He L) dbg X) (Iv X) /\ inside (-1) 1 (isin (float_math prec emax Hp He L) dbg X).
  Proof.
    intros P6 Pi Cos HX [B1 B2] HB. assert (P4 : (4 <= prec)%Z) by lia. assert (B0 : 0 <= B) by (eapply Rle_trans; [apply Rabs_pos|exact B1]).
    pose proof (u_pos prec) as U0. pose proof (u_small prec P4) as U1. pose proof (emax5 prec emax He P4) as E5. pose proof pi_bounds as PB.
    assert (HB4 : 1.0625 * B + 1.78 <= bpow radix2 (prec - 4)).
    { replace (prec - 4)%Z with (prec - 5 + 1)%Z by ring. rewrite bpow_plus_1. change (IZR radix2) with 2. assert (2 <= bpow radix2 (prec - 5)); [|lra].
      replace 2 with (bpow radix2 1) by (cbn; lra). apply bpow_le. lia. }
    assert (HBe : B + 8 <= bpow radix2 (emax - 1)).
    { assert (bpow radix2 (prec - 4) <= bpow radix2 (emax - 5)) by (apply bpow_le; pose proof He as K; unfold Prec_lt_emax in K; lia).
      pose proof (big_enough prec emax He P4). replace (emax - 1)%Z with (emax - 5 + 4)%Z in * by ring. rewrite bpow_plus in *. change (bpow radix2 4) with 16 in *. lra. }
    destruct (pi_near prec emax He P4 _ Pi) as (Fp & _ & Np). set (p := l_pi L) in *. pose proof (Rabs_le_inv _ _ Np) as Np'. set (q := B2R p) in *.
    assert (M4 : 0 <= u * PI <= PI / 16 /\ u * PI <= 3.1416 * u) by (clear - U0 U1 PB; nra).
    assert (Bp : 2.9 <= q <= 3.35) by lra. assert (M1 : 0 <= u * B <= B / 16) by (clear - U0 U1 B0; nra).
    destruct (two_real prec emax Hp He P4 L) as [F2 E2]. unfold isin. cbn [n_div float_num m_pi float_math m_of_Z bind] in *. fold p.
    destruct (div_real prec emax Hp He p _ Fp F2) as [Fh Eh]. { rewrite E2. lra. } { rewrite E2. fold q. apply Rabs_le. lra. }
    rewrite E2 in Eh. fold q in Eh. rewrite round_generic in Eh; [|auto with typeclass_instances|apply half_format; [lra|exact E5|apply generic_format_B2R]].
    set (h := Bdiv mode_NE p _) in *. pose proof HX as (Flo & Fhi & Ord). cbn [alower aupper] in *. apply Rabs_le_inv in B1, B2.
    destruct (round_sub prec emax Hp He dbg (Iv X) (Sc (h : FN)) HX) as (Y & l & u' & EY & (R1 & (r1 & s1 & W1 & S1 & A1) & (r2 & s2 & W2 & S2 & A2)) & N1 & N2).
    { split; [exact Fh|split; [exact Fh|apply Rle_refl]]. }
    rewrite EY. cbn [bind]. unfold within in *. cbn [alower aupper] in *. pose proof (R1 (B2R (lo X)) (B2R h) ltac:(lra) ltac:(lra)) as R2. pose proof (R1 (B2R (hi X)) (B2R h) ltac:(lra) ltac:(lra)) as R3.
    assert (El : l = B2R (lo X) - q / 2) by lra. assert (Eu : u' = B2R (hi X) - q / 2) by lra. clear R1 R2 R3 A1 A2 W1 W2 S1 S2.
    assert (Near : forall (v z : FN), is_finite (v : F) = true -> - B <= B2R v <= B -> nearest (B2R v - q / 2) (z : F) ->
      is_finite (z : F) = true /\ B2R z = rnd (B2R v - q / 2) /\ Rabs (B2R z - (B2R v - q / 2)) <= u * (B + 1.675)).
    { intros v z Fv Bv [Nz _]. destruct (sub_real prec emax Hp He v h Fv Fh) as (Fs & Es & Ns). { rewrite Eh. apply Rabs_le. lra. }
      rewrite Eh in Es, Ns. rewrite Es in Ns. destruct Nz as [Fz Ez].
      - pose proof (abs_B2R_lt_emax prec emax (Bminus mode_NE (v : F) h)) as K. rewrite Es in K. exact K.
      - split; [exact Fz|]. split; [exact Ez|]. rewrite Ez. eapply Rle_trans; [exact Ns|]. apply Rmult_le_compat_l; [lra|]. apply Rabs_le. lra. }
    rewrite El in N1. rewrite Eu in N2. destruct (Near _ _ Flo B1 N1) as (FYl & EYl & NYl). destruct (Near _ _ Fhi B2 N2) as (FYu & EYu & NYu).
    assert (OY : B2R (lo Y) <= B2R (hi Y)) by (rewrite EYl, EYu; apply round_le; auto with typeclass_instances; lra).
    pose proof (Rabs_le_inv _ _ NYl) as Kl. pose proof (Rabs_le_inv _ _ NYu) as Ku.
    destruct (cos_near prec emax Hp He P4 L eps (1.0625 * B + 1.78) dbg Pi Cos ltac:(lra) Y) as (Z & E & F1 & F3 & I1 & I2 & O & NN).
    { split; [exact FYl|split; [exact FYu|exact OY]]. }
    { split; cbn [alower aupper]; apply Rabs_le; lra. }
    assert (Tot : eps + u * (12 * (1.0625 * B + 1.78) + 64) + u * (B + 3.3) <= eps + (14 * B + 90) * u) by (clear - U0 B0 M1; nra).
    assert (Sh : forall v z : R, Rabs (z - (v - q / 2)) <= u * (B + 1.675) -> Rabs (z - (v + - (PI / 2))) <= u * (B + 3.3)).
    { intros v z K. apply Rabs_le_inv in K. apply Rabs_le. lra. }
    pose proof (near_shift cos sin (- (PI / 2)) (u * (B + 3.3)) _ (B2R (lo X)) (B2R (hi X)) _ _ _ _ cos_lipschitz sin_as_cos Ord OY (Sh _ _ NYl) (Sh _ _ NYu) NN) as (W1 & (x1 & X1 & W2) & (x2 & X2 & W3)).
    split; exists Z; [|auto]. split; [exact E|]. split; [now split|]. split; [intros r Hr; specialize (W1 r Hr); lra|].
    split; [exists x1|exists x2]; split; auto; lra.
  Qed.

  (** The machine number nearest to a real number. *)
  Definition nearest_float (r : R) : F :=
    binary_normalize prec emax Hp He mode_NE (ZnearestE (scaled_mantissa radix2 fexp r)) (cexp radix2 fexp r) false.
  Lemma nearest_float_spec r : nearest r (nearest_float r).
  Proof.
    pose proof (binary_normalize_correct prec emax Hp He mode_NE (ZnearestE (scaled_mantissa radix2 fexp r)) (cexp radix2 fexp r) false) as C. cbv zeta in C.
    cbn [round_mode] in C. change (F2R (Float radix2 (ZnearestE (scaled_mantissa radix2 fexp r)) (cexp radix2 fexp r))) with (rnd r) in C.
    rewrite (round_generic radix2 fexp ZnearestE (rnd r)) in C by (apply generic_format_round; auto with typeclass_instances). fold (nearest_float r) in C.
    unfold nearest. change (rn prec emax r) with (rnd r). split; intros H.
    - rewrite Rlt_bool_true in C by exact H. destruct C as (C1 & C2 & _). auto.
    - rewrite Rlt_bool_false in C by exact H. apply B2SF_inj. rewrite C. rewrite overflow_ne. cbn. f_equal.
      pose proof (big_nonzero prec emax r H) as N. destruct (Rlt_bool_spec r 0) as [K|K].
      + apply Rlt_bool_true. assert (rnd r <= 0) by (rewrite <- (rnd_0 prec emax); apply round_le; auto with typeclass_instances; lra).
        assert (rnd r <> 0); [|lra]. intros Z0. rewrite Z0, Rabs_R0 in H. pose proof (bpow_gt_0 radix2 emax). lra.
      + apply Rlt_bool_false. rewrite <- (rnd_0 prec emax). apply round_le; auto with typeclass_instances.
  Qed.
  (** A C library whose functions return the machine number nearest to the exact result (cbrt and atan2, which are not used, are missing). *)
  Definition nearest_libm : libm F := {|
    l_cbrt := fun v => nearest_float (Rcbrt (B2R v));
    l_log := fun v => match v with B754_infinity false => v | B754_zero _ => B754_infinity true | B754_finite false _ _ _ => nearest_float (ln (B2R v)) | _ => B754_nan end;
    l_exp := fun v => match v with B754_infinity false | B754_nan => v | B754_infinity true => B754_zero false | _ => nearest_float (exp (B2R v)) end;
    l_pow := fun v w => nearest_float (Rpower (B2R v) (B2R w)); l_cos := fun v => nearest_float (cos (B2R v)); l_sin := fun v => nearest_float (sin (B2R v));
    l_tan := fun v => nearest_float (tan (B2R v)); l_asin := fun v => nearest_float (asin (B2R v)); l_acos := fun v => nearest_float (acos (B2R v));
    l_atan := fun v => nearest_float (atan (B2R v)); l_atan2 := fun v w => nearest_float (Ratan2 (B2R v) (B2R w)); l_pi := nearest_float PI |}.
  Lemma nearest_libm_cos : (4 <= prec)%Z -> nearest PI (l_pi nearest_libm) /\ @cos_within prec emax Hp He u (l_cos nearest_libm).
  Proof.
    intros P4. split; [apply nearest_float_spec|]. intros v Fv _. cbn [l_cos nearest_libm].
    pose proof (emax5 prec emax He P4) as E5. pose proof (COS_bound (B2R v)) as CB. set (c := cos (B2R v)) in *.
    assert (A1 : Rabs (rnd c) <= 1).
    { apply abs_round_le_generic; auto with typeclass_instances; [|apply Rabs_le; lra]. change 1 with (bpow radix2 0). apply generic_format_bpow.
      unfold SpecFloat.fexp, SpecFloat.emin. lia. }
    destruct (nearest_float_spec c) as [K _]. change (rn prec emax c) with (rnd c) in K. destruct K as [K1 K2].
    { eapply Rle_lt_trans; [exact A1|]. change 1 with (bpow radix2 0). apply bpow_lt. lia. }
    split; [exact K1|]. change (B2R (nearest_float c : FN)) with (B2R (nearest_float c)). rewrite K2. split; [exact A1|].
    eapply Rle_trans; [apply error_le_half_ulp; auto with typeclass_instances|].
    assert (ulp radix2 fexp c <= ulp radix2 fexp (bpow radix2 0)).
    { apply ulp_le; auto with typeclass_instances. { apply (FLT_exp_monotone (3 - emax - prec) prec). } rewrite (Rabs_pos_eq (bpow _ _)) by apply bpow_ge_0. cbn. apply Rabs_le. lra. }
    rewrite ulp_bpow in H. replace (fexp (0 + 1)) with (- prec + 1)%Z in H by (unfold SpecFloat.fexp, SpecFloat.emin; lia). rewrite bpow_plus_1 in H. change (IZR radix2) with 2 in H. lra.
  Qed.
End Float.

(** ** sin at zero, double precision *)
Definition pi64 : float64 := f64 7074237752028440 (-51).
Definition mhalf_pi64 : float64 := f64 (-7074237752028440) (-52).
Lemma pi64_real : B2R pi64 = IZR 7074237752028440 / IZR (2 ^ 51).
Proof.
  change (F2R (Float radix2 (Z.pos 7074237752028440) (-51)) = IZR 7074237752028440 / IZR (2 ^ 51)). unfold F2R. cbn [Fnum Fexp].
  change (bpow radix2 (-51)) with (/ IZR (2 ^ 51)). reflexivity.
Qed.
Lemma pi64_nearest : round radix2 (SpecFloat.fexp 53 1024) ZnearestE PI = B2R pi64.
Proof.
  pose proof pi_above as A. pose proof pi_below as B. pose proof pi_bounds as C.
  assert (Mg : mag radix2 PI = 2%Z :> Z) by (apply mag_unique; rewrite Rabs_pos_eq by lra; cbn; lra).
  rewrite pi64_real. unfold round, scaled_mantissa, cexp. rewrite Mg. change (SpecFloat.fexp 53 1024 2) with (-51)%Z. unfold F2R. cbn [Fnum Fexp].
  change (bpow radix2 (- -51)) with (IZR (2 ^ 51)). change (bpow radix2 (-51)) with (/ IZR (2 ^ 51)).
  rewrite (Znearest_imp _ _ 7074237752028440); [reflexivity|].
  change (IZR (2 ^ 51)) with 2251799813685248 in *. rewrite Rabs_pos_eq; lra.
Qed.
Lemma pi64_unique p : @nearest 53 1024 PI p -> p = pi64.
Proof.
  intros [H _]. change (rn 53 1024 PI) with (round radix2 (SpecFloat.fexp 53 1024) ZnearestE PI) in H. rewrite pi64_nearest in H.
  destruct H as [F E]; [apply (abs_B2R_lt_emax 53 1024 pi64)|]. apply B2R_inj; [|reflexivity|exact E].
  destruct p; try discriminate F; [|reflexivity]. exfalso. cbn [B2R] in E. rewrite pi64_real in E. change (IZR (2 ^ 51)) with 2251799813685248 in E. lra.
Qed.
Lemma sin_zero_value (L : libm (binary_float 53 1024)) dbg : l_pi L = (pi64 : binary_float 53 1024) ->
  isin (float_math 53 1024 prec_gt_0_53 prec_lt_emax_64 L) dbg (Ivl (f64 0 0) (f64 0 0)) = @from_unordered_bounds float64 (l_cos L mhalf_pi64) (l_cos L mhalf_pi64).
Proof.
  intros Hpi. unfold isin, isub, icos, wraparound, scos, aassigned, assigned, mk, is_ninf, is_pinf. cbn [m_pi m_of_Z m_fmod m_cos float_math n_neg n_div n_sub n_add n_mul float_num bind lo hi alower aupper].
  rewrite !Hpi.
  assert (E : forall b, b = true -> expects b = Ret tt) by (intros b ->; reflexivity). assert (ED : forall b, b = true -> expects_debug dbg b = Ret tt) by (intros b ->; now destruct dbg).
  rewrite ED by (vm_compute; reflexivity). cbn [bind].
  match goal with |- context [if ?b then nan_interval else _] => replace b with false by (vm_compute; reflexivity) end.
  rewrite E by (vm_compute; reflexivity). cbn [bind lo hi]. rewrite ED by (vm_compute; reflexivity). cbn [bind]. rewrite E by (vm_compute; reflexivity). cbn [bind].
  match goal with |- context [l_cos L ?v] => replace v with mhalf_pi64 by (apply B2SF_inj; vm_compute; reflexivity) end.
  match goal with |- context [l_cos L (Bplus ?m ?a ?b)] => replace (Bplus m a b) with mhalf_pi64 by (apply B2SF_inj; vm_compute; reflexivity) end.
  match goal with |- (if ?b then _ else _) = _ => replace b with true by (vm_compute; reflexivity) end.
  reflexivity.
Qed.
Lemma mhalf_real : B2R mhalf_pi64 = - (B2R pi64 / 2).
Proof.
  change (F2R (Float radix2 (Z.neg 7074237752028440) (-52)) = - (B2R pi64 / 2)). rewrite pi64_real. unfold F2R. cbn [Fnum Fexp].
  change (bpow radix2 (-52)) with (/ 4503599627370496). change (IZR (2 ^ 51)) with 2251799813685248. lra.
Qed.
Lemma cos_half_pi64 : bpow radix2 (-60) <= cos (B2R pi64 / 2).
Proof.
  pose proof pi_above_gap as A. pose proof pi_below as B. pose proof pi_bounds as PB. rewrite <- (sin_shift (B2R pi64 / 2)). rewrite pi64_real.
  change (IZR (2 ^ 51)) with 2251799813685248 in *. set (t := PI / 2 - 7074237752028440 / 2251799813685248 / 2).
  change (bpow radix2 (-60)) with (/ 1152921504606846976). assert (T : / 36028797018963968 < t < 1) by (unfold t; lra). clearbody t.
  destruct (MVT_cor2 sin cos 0 t) as (c & E & C); [lra|intros; apply derivable_pt_lim_sin|]. rewrite sin_0 in E. replace (sin t) with (cos c * t) by lra.
  assert (/ 2 <= cos c); [|nra]. replace (/ 2) with (cos (PI / 3)) by (rewrite cos_PI3; lra). apply Rlt_le, cos_decreasing_1; lra.
Qed.
Lemma nearest_libm_sign (v : binary_float 53 1024) : is_finite v = true -> Rabs (B2R v) <= 7 ->
  is_finite (l_cos (nearest_libm 53 1024 prec_gt_0_53 prec_lt_emax_64) v) = true /\
  (bpow radix2 (-60) <= cos (B2R v) -> 0 < B2R (l_cos (nearest_libm 53 1024 prec_gt_0_53 prec_lt_emax_64) v)).
Proof.
  intros Fv Bv. destruct (nearest_libm_cos 53 1024 prec_gt_0_53 prec_lt_emax_64 ltac:(lia)) as [_ C]. destruct (C v Fv Bv) as (Fc & _).
  split; [exact Fc|]. intros P. cbn [l_cos nearest_libm] in *.
  destruct (nearest_float_spec 53 1024 prec_gt_0_53 prec_lt_emax_64 (cos (B2R v))) as [K K'].
  destruct (Rlt_or_le (Rabs (rn 53 1024 (cos (B2R v)))) (bpow radix2 1024)) as [Q|Q].
  - destruct (K Q) as [_ E]. rewrite E. apply Rlt_le_trans with (bpow radix2 (-60)); [apply bpow_gt_0|]. unfold rn.
    apply round_ge_generic; [apply (fexp_correct 53 1024 prec_gt_0_53)|auto with typeclass_instances| |exact P]. apply generic_format_bpow. unfold FLT_exp. lia.
  - rewrite (K' Q) in Fc. discriminate.
Qed.
Lemma sin_zero_missed (L : libm (binary_float 53 1024)) dbg : nearest PI (l_pi L) ->
  (forall v, is_finite v = true -> Rabs (B2R v) <= 7 -> is_finite (l_cos L v) = true /\ (bpow radix2 (-60) <= cos (B2R v) -> 0 < B2R (l_cos L v))) ->
  exists (X Z : ivl float64) (r : R), finite_arg (Iv X) /\ isin (float_math 53 1024 prec_gt_0_53 prec_lt_emax_64 L) dbg X = Ret Z /\ within (Iv X) r
    /\ ~ (B2R (lo Z) <= sin r <= B2R (hi Z)).
Proof.
  intros Pi Cos. apply pi64_unique in Pi. set (c := l_cos L mhalf_pi64).
  assert (Em : B2R (mhalf_pi64 : binary_float 53 1024) = - (B2R pi64 / 2)) by apply mhalf_real.
  pose proof pi_bounds as PB. pose proof pi_above as A. rewrite <- pi64_real in A. assert (P3 : 3 < B2R pi64) by (rewrite pi64_real; change (IZR (2 ^ 51)) with 2251799813685248; lra).
  destruct (Cos mhalf_pi64 eq_refl) as [Fc Pc]. { rewrite Em. apply Rabs_le. lra. }
  assert (C0 : 0 < B2R c). { apply Pc. rewrite Em, cos_neg. apply cos_half_pi64. }
  exists (Ivl (f64 0 0) (f64 0 0)), (@Ivl float64 (@omin float64 c c) (@omax float64 c c)), 0.
  assert (Z0 : B2R (f64 0 0) = 0) by reflexivity.
  split; [split; [reflexivity|split; [reflexivity|apply Rle_refl]]|]. split; [|split].
  - rewrite sin_zero_value by exact Pi. apply (fub_real 53 1024); exact Fc.
  - unfold within. cbn [alower aupper lo hi]. rewrite Z0. lra.
  - destruct (omin_real 53 1024 prec_gt_0_53 prec_lt_emax_64 c c Fc Fc) as [_ E]. unfold float64. cbn [lo hi]. rewrite E, sin_0. rewrite Rmin_left by lra. lra.
Qed.
