(** A correctly rounded C library satisfies the hypotheses of C67; a power that is missed. *)
From Coq Require Import Reals ZArith Bool Lra Psatz Lia.
From Flocq Require Import Core BinarySingleNaN Relative.
From Verif Require Import Outcome SetModel MathModel FloatMath MathSpec FloatMathProofs Spec Num NumLaws IntervalModel IvlSpec IvlProofs XReal FloatNum FloatProofs
  ValueTypes MathProofs RoundSpec RoundProofs MachineSpec NumericFacts TrigMachineProofs SinMachineProofs RealNum MonoProofs PowMachineProofs PowNearProofs.
Open Scope R_scope.

Section Lib.
  Context (prec emax : Z) (Hp : Prec_gt_0 prec) (He : Prec_lt_emax prec emax).
  Existing Instance Hp.
  Existing Instance He.
  Notation F := (binary_float prec emax).
  Notation FN := (float_num prec emax Hp He).
  Notation fexp := (SpecFloat.fexp prec emax).
  Notation rnd := (round radix2 fexp ZnearestE).
  Notation u := (bpow radix2 (- prec)).
  Notation NF := (nearest_float prec emax Hp He).
  Notation NL := (nearest_libm prec emax Hp He).
  Local Instance valid_fexp2 : Valid_exp fexp := fexp_correct prec emax Hp.
  Notation f2x := (f2x prec emax).

  Lemma nearest_x r : f2x (NF r) = rd prec emax r.
  Proof.
    destruct (nearest_float_spec prec emax Hp He r) as [A B]. unfold rd. change (round radix2 fexp ZnearestE r) with (rn prec emax r) in *.
    destruct (Rlt_bool_spec (Rabs (rn prec emax r)) (bpow radix2 emax)) as [K|K].
    - destruct (A K) as [F1 F2]. rewrite (f2x_finite _ _ _ F1), F2. reflexivity.
    - rewrite (B K). destruct (Rlt_bool r 0); reflexivity.
  Qed.
  Lemma nearest_mono r s : r <= s -> @o_le FN (NF r) (NF s) = true.
  Proof. intros H. rewrite (d_le _ _ _ (float_denotes prec emax Hp He)), !nearest_x. now apply rd_mono. Qed.
  Let D := float_denotes prec emax Hp He.
  Lemma log_x (v : F) r : f2x v = XFin r -> 0 <= r -> f2x (l_log NL v) = if Rle_bool r 0 then XNinf else rd prec emax (ln r).
  Proof.
    intros E P. destruct v as [s|[|]| |[|] m e B]; try discriminate E; injection E as <-.
    - rewrite Rle_bool_true by lra. reflexivity.
    - exfalso. pose proof (finite_neg m e). lra.
    - pose proof (finite_pos m e). rewrite Rle_bool_false by assumption. apply nearest_x.
  Qed.
  Lemma nearest_log_mono : @increasing FN nonneg (m_log (float_math prec emax Hp He NL)).
  Proof.
    intros a b Na Nb H. unfold nonneg in *. rewrite !(d_le _ _ _ D) in *. change (m_log (float_math prec emax Hp He NL)) with (l_log NL).
    assert (K : forall v : F, xle (f2x (@n_zero FN)) (f2x v) = true -> (v = B754_infinity false) \/ exists r, f2x v = XFin r /\ 0 <= r).
    { intros v Hv. destruct v as [s|[|]| |s m e B]; try discriminate Hv; [right|left|right]; auto; eexists; (split; [reflexivity|]); [lra|]. cbn in Hv |- *.
      match type of Hv with Rle_bool ?x ?y = true => destruct (Rle_bool_spec x y); [assumption|discriminate] end. }
    destruct (K a Na) as [->|(r & Er & Pr)].
    { destruct (K b Nb) as [->|(s & Es & Ps)]; [reflexivity|]. change (xle XPinf (f2x b) = true) in H. rewrite Es in H. discriminate. }
    rewrite (log_x a r Er Pr). destruct (K b Nb) as [->|(s & Es & Ps)].
    { cbn [l_log nearest_libm]. change (f2x (B754_infinity false)) with XPinf. destruct (Rle_bool r 0); [reflexivity|]. pose proof (rd_ok D (ln r)). destruct (rd prec emax (ln r)); auto. }
    rewrite (log_x b s Es Ps). change (xle (f2x a) (f2x b) = true) in H. rewrite Er, Es in H. cbn in H. destruct (Rle_bool_spec r s) as [RS|]; [|discriminate].
    destruct (Rle_bool_spec r 0), (Rle_bool_spec s 0); try lra; auto.
    - pose proof (rd_ok D (ln s)). destruct (rd prec emax (ln s)); auto.
    - apply rd_mono; auto. apply ln_le'; lra.
  Qed.
  Lemma exp_x (v : F) : f2x (l_exp NL v) = match f2x v with XFin r => rd prec emax (exp r) | XNinf => XFin 0 | x => x end.
  Proof. destruct v as [s|[|]| |[|] m e B]; try reflexivity; apply nearest_x. Qed.
  Lemma nearest_exp_mono : @increasing FN anywhere (m_exp (float_math prec emax Hp He NL)).
  Proof.
    intros a b _ _ H. rewrite !(d_le _ _ _ D) in *. change (m_exp (float_math prec emax Hp He NL)) with (l_exp NL). rewrite !exp_x.
    destruct (f2x a) as [| |r|], (f2x b) as [| |s|]; try discriminate H; auto.
    - cbn. apply Rle_bool_true. lra.
    - rewrite <- (d_rd_0 _ _ _ D). apply rd_mono; auto. apply Rlt_le, exp_pos.
    - cbn in H. destruct (Rle_bool_spec r s); [|discriminate]. apply rd_mono; auto. now apply exp_le.
    - pose proof (rd_ok D (exp r)). destruct (rd prec emax (exp r)); auto.
  Qed.
  Lemma nearest_log_within Lam : Lam <= bpow radix2 (emax - 1) -> @log_within prec emax Hp He (u * (Lam + 1)) Lam (l_log NL).
  Proof.
    intros HL v Fv Pv Lv. destruct v as [s|[|]| |[|] m e B]; try discriminate Fv; cbn in Pv; [lra|pose proof (finite_neg m e); lra|]. cbn [l_log nearest_libm].
    set (q := ln _) in *. destruct (nearest_float_spec prec emax Hp He q) as [K _]. change (rn prec emax q) with (rnd q) in K. destruct K as [K1 K2].
    - eapply Rle_lt_trans; [apply (abs_round_le_generic radix2 fexp ZnearestE q (bpow radix2 (emax - 1)))|apply bpow_lt; lia]; [|lra].
      apply generic_format_bpow. pose proof Hp. pose proof He. unfold Prec_gt_0, Prec_lt_emax, SpecFloat.fexp, SpecFloat.emin in *. lia.
    - split; [exact K1|]. change (B2R (NF q : FN)) with (B2R (NF q)). rewrite K2. eapply Rle_trans; [apply (rnd_error prec emax Hp He)|]. apply Rmult_le_compat_l; [apply bpow_ge_0|]. lra.
  Qed.
End Lib.

Lemma exp_700 v : Rabs v <= 700 -> bpow radix2 (-1010) <= exp v <= bpow radix2 1010.
Proof.
  intros H. apply Rabs_le_inv in H. pose proof ln2_bounds as L2.
  assert (E : forall k : Z, bpow radix2 k = exp (IZR k * ln 2)).
  { intros k. rewrite bpow_powerRZ. change (IZR radix2) with 2. rewrite powerRZ_Rpower by lra. reflexivity. }
  rewrite !E. split; apply exp_le; lra.
Qed.
Lemma nearest_exp_within : @exp_within 53 1024 prec_gt_0_53 prec_lt_emax_64 (bpow radix2 (-53)) 700 (l_exp (nearest_libm 53 1024 prec_gt_0_53 prec_lt_emax_64)).
Proof.
  intros v Fv Tv. replace (l_exp (nearest_libm 53 1024 prec_gt_0_53 prec_lt_emax_64) v) with (nearest_float 53 1024 prec_gt_0_53 prec_lt_emax_64 (exp (B2R v))) by (destruct v; try discriminate Fv; reflexivity).
  destruct (exp_700 _ Tv) as [E1 E2]. set (q := exp (B2R v)) in *. assert (0 < q) by apply exp_pos.
  destruct (nearest_float_spec 53 1024 prec_gt_0_53 prec_lt_emax_64 q) as [K _].
  assert (V : Valid_exp (FLT_exp (3 - 1024 - 53) 53)) by (apply FLT_exp_valid; reflexivity).
  destruct K as [K1 K2].
  - unfold rn. eapply Rle_lt_trans; [apply (abs_round_le_generic radix2 (FLT_exp (3 - 1024 - 53) 53) ZnearestE q (bpow radix2 1010))|apply bpow_lt; lia].
    + apply generic_format_bpow. unfold FLT_exp. lia.
    + rewrite Rabs_pos_eq; lra.
  - split; [exact K1|]. rewrite K2. unfold rn. eapply Rle_trans; [apply relative_error_N_FLT; [reflexivity|]|].
    + rewrite Rabs_pos_eq by lra. apply Rle_trans with (2 := E1). apply bpow_le. lia.
    + rewrite Rabs_pos_eq by lra. apply Rmult_le_compat_r; [lra|]. change (-53 + 1)%Z with (-53 + 1)%Z. replace (- (53) + 1)%Z with (-53 + 1)%Z by reflexivity. rewrite (bpow_plus radix2 (-53) 1). change (bpow radix2 1) with 2. lra.
Qed.

(** 2^1000 is not in pow(2, 1000): no double is close enough to 1000 ln 2 *)
Lemma pow_value (L : libm (binary_float 53 1024)) dbg (l p e : binary_float 53 1024) : l_log L (f64 2 0) = l -> is_finite l = true -> @n_mul float64 (f64 1000 0) l = Ret p -> is_finite p = true ->
  l_exp L p = e -> is_finite e = true ->
  exists Z : ivl float64, ipow (float_math 53 1024 prec_gt_0_53 prec_lt_emax_64 L) dbg (Iv (@Ivl float64 (f64 2 0) (f64 2 0))) (Sc (f64 1000 0 : float64)) = Ret Z /\ B2R (lo Z) = B2R e /\ B2R (hi Z) = B2R e.
Proof.
  intros El Fl Ep Fp Ee Fe. set (M := float_math 53 1024 prec_gt_0_53 prec_lt_emax_64 L). set (D := float_denotes 53 1024 prec_gt_0_53 prec_lt_emax_64).
  assert (MK : forall v : binary_float 53 1024, is_finite v = true -> @mk float64 v v = Ret (@Ivl float64 v v)).
  { intros v Fv. apply (mk_real 53 1024); auto. apply Rle_refl. }
  assert (PR : forall v : binary_float 53 1024, is_finite v = true -> @o_le float64 v v = true).
  { intros v Fv. apply (proj2 (le_B2R 53 1024 prec_gt_0_53 prec_lt_emax_64 v v Fv Fv)). apply Rle_refl. }
  assert (DB : expects_debug dbg true = Ret tt) by (now destruct dbg).
  assert (E1 : @ilog float64 M dbg (@Ivl float64 (f64 2 0) (f64 2 0)) = Ret (@Ivl float64 l l)).
  { unfold ilog, slog. replace (assigned _) with true by (vm_compute; reflexivity). cbn [lo hi]. replace (@o_le float64 n_zero (f64 2 0)) with true by (vm_compute; reflexivity).
    rewrite DB. cbn [bind]. change (m_log M (f64 2 0)) with (l_log L (f64 2 0)). rewrite El. now apply MK. }
  assert (E2 : @mul0 float64 (f64 1000 0) l = Ret p).
  { unfold mul0. rewrite Ep. cbn [bind]. replace (@nan_b float64 p) with false; [reflexivity|]. unfold nan_b. symmetry. apply negb_false_iff. rewrite (d_eq _ _ _ D). apply xeq_iff.
    split; [reflexivity|]. rewrite (f2x_finite _ _ _ Fp). discriminate. }
  assert (LE : @hull2 float64 p p = Ret (@Ivl float64 p p)).
  { unfold hull2. assert (@omin float64 p p = p) as -> by (destruct (@omin_cases float64 p p); auto). assert (@omax float64 p p = p) as -> by (destruct (@omax_cases float64 p p); auto). now apply MK. }
  assert (E3 : @iexp float64 M dbg (@Ivl float64 p p) = Ret (@Ivl float64 e e)).
  { unfold iexp, sexp. rewrite (dbg_assigned (denotes_ord D)) by (apply PR; exact Fp). cbn [bind lo hi]. change (m_exp M p) with (l_exp L p). rewrite Ee. now apply MK. }
  assert (E4 : @amax0 float64 dbg (Iv (@Ivl float64 (f64 2 0) (f64 2 0))) = Ret (Iv (@Ivl float64 (f64 2 0) (f64 2 0)))).
  { unfold amax0, imax. replace (aassigned _ && aassigned _) with true by (vm_compute; reflexivity). rewrite DB. cbn [bind alower aupper lo hi].
    unfold omax. replace (@o_lt float64 n_zero (f64 2 0)) with true by (vm_compute; reflexivity). rewrite MK by reflexivity. reflexivity. }
  destruct (aassign_default_phi D (Iv (@Ivl float64 e e)) (PR e Fe)) as (Z & EZ & Zl & Zu). exists Z.
  assert (Px : @aproper float64 (Iv (@Ivl float64 (f64 2 0) (f64 2 0)))) by (vm_compute; reflexivity).
  split.
  - unfold ipow. replace (aassigned _ && aassigned _) with true by (vm_compute; reflexivity). rewrite DB. cbn [bind].
    change (float_num 53 1024 prec_gt_0_53 prec_lt_emax_64) with float64 in *.
    rewrite (possibly_nonneg_gen D dbg _ Px), (possibly_neg_gen D dbg _ Px). cbn [alower aupper lo hi].
    replace (@o_le float64 n_zero (f64 2 0)) with true by (vm_compute; reflexivity). replace (@o_lt float64 (f64 2 0) n_zero) with false by (vm_compute; reflexivity). cbn [bind].
    rewrite E4. cbn [bind alog]. rewrite E1. cbn [bind amul0 lo hi]. rewrite E2. cbn [bind]. rewrite LE. cbn [bind aexp]. rewrite E3. cbn [bind]. rewrite EZ. reflexivity.
  - cbn [alower aupper lo hi] in Zl, Zu. rewrite (f2x_finite _ _ _ Fe) in Zl, Zu. apply f2x_fin in Zl, Zu. tauto.
Qed.
Lemma log_grid (q : R) : generic_format radix2 (SpecFloat.fexp 53 1024) q -> 692 <= q <= 695 -> exists n : Z, q = IZR n * / 8796093022208.
Proof.
  intros G [H1 H2]. exists (Ztrunc (scaled_mantissa radix2 (SpecFloat.fexp 53 1024) q)). unfold generic_format in G. rewrite G at 1. unfold F2R. cbn [Fnum Fexp]. f_equal.
  unfold cexp. replace (mag radix2 q : Z) with 10%Z. { reflexivity. }
  symmetry. apply mag_unique. rewrite Rabs_pos_eq by lra. change (bpow radix2 (10 - 1)) with 512. change (bpow radix2 10) with 1024. lra.
Qed.
Lemma grid_misses (n : Z) : let t := IZR n * / 8796093022208 - 1000 * ln 2 in t <= - (3 / 70368744177664) \/ 3 / 70368744177664 <= t.
Proof.
  cbv zeta. pose proof ln2_bounds as [A B]. destruct (Z.le_gt_cases n 6096987078286483) as [H|H]; [left|right].
  - apply IZR_le in H. lra.
  - assert (6096987078286484 <= n)%Z as H' by lia. apply IZR_le in H'. lra.
Qed.
Lemma pow_missed (L : libm (binary_float 53 1024)) dbg : @log_within 53 1024 prec_gt_0_53 prec_lt_emax_64 (bpow radix2 (-10)) 1 (l_log L) ->
  @exp_within 53 1024 prec_gt_0_53 prec_lt_emax_64 (bpow radix2 (-46)) 700 (l_exp L) ->
  exists (X Z : ivl float64) (y : float64) (r s : R), finite_arg (Iv X) /\ finite_arg (Sc y) /\ within (Iv X) r /\ within (Sc y) s
    /\ ipow (float_math 53 1024 prec_gt_0_53 prec_lt_emax_64 L) dbg (Iv X) (Sc y) = Ret Z /\ ~ (B2R (lo Z) <= Rpower r s <= B2R (hi Z)).
Proof.
  intros LW EW. pose proof ln2_bounds as L2. change (bpow radix2 (-10)) with (/ 1024) in LW. 
  assert (T2 : B2R (f64 2 0) = 2) by (unfold B2R, F2R; cbn; lra). assert (TK : B2R (f64 1000 0) = 1000) by (unfold B2R, F2R; cbn; lra).
  destruct (LW (f64 2 0) eq_refl) as [Fl Bl]. { change (0 < B2R (f64 2 0)). rewrite T2. lra. } { change (Rabs (ln (B2R (f64 2 0))) <= 1). rewrite T2, Rabs_pos_eq; lra. }
  set (l := l_log L (f64 2 0)) in *. change (Rabs (B2R l - ln (B2R (f64 2 0))) <= / 1024) in Bl. rewrite T2 in Bl. apply Rabs_le_inv in Bl.
  destruct (mult_real 53 1024 prec_gt_0_53 prec_lt_emax_64 (f64 1000 0) l eq_refl Fl) as [Fp Bp].
  { rewrite TK. apply Rle_trans with (bpow radix2 10); [|apply bpow_le; lia]. change (bpow radix2 10) with 1024. apply Rabs_le. lra. }
  rewrite TK in Bp. set (p := Bmult mode_NE (f64 1000 0) l) in *.
  assert (V : Valid_exp (SpecFloat.fexp 53 1024)) by (apply (fexp_correct 53 1024); reflexivity).
  assert (GF : forall z : Z, (512 <= z < 1024)%Z -> generic_format radix2 (SpecFloat.fexp 53 1024) (IZR z)).
  { intros z Hz. apply (generic_format_FLT radix2 (3 - 1024 - 53) 53). exists (Float radix2 z 0); [unfold F2R; cbn; lra|cbn; lia|cbn; lia]. }
  assert (Q : 692 <= B2R p <= 695).
  { rewrite Bp. apply (rnd_between 53 1024 prec_gt_0_53); [apply GF; lia|apply GF; lia|lra]. }
  destruct (log_grid (B2R p)) as (n & En); [rewrite Bp; apply generic_format_round; auto with typeclass_instances|exact Q|].
  pose proof (grid_misses n) as GM. cbv zeta in GM. rewrite <- En in GM.
  destruct (EW p Fp) as [Fe Be]; [apply Rabs_le; change (B2R (p : float64)) with (B2R p); lra|]. change (B2R (p : float64)) with (B2R p) in Be.
  destruct (pow_value L dbg l p (l_exp L p) eq_refl Fl eq_refl Fp eq_refl Fe) as (Z & EZ & Zl & Zu).
  exists (Ivl (f64 2 0) (f64 2 0)), Z, (f64 1000 0), 2, 1000.
  assert (FX : @finite_arg 53 1024 prec_gt_0_53 prec_lt_emax_64 (Iv (@Ivl float64 (f64 2 0) (f64 2 0)))) by (split; [reflexivity|split; [reflexivity|apply Rle_refl]]).
  assert (FY : @finite_arg 53 1024 prec_gt_0_53 prec_lt_emax_64 (Sc (f64 1000 0 : float64))) by (split; [reflexivity|split; [reflexivity|apply Rle_refl]]).
  split; [exact FX|]. split; [exact FY|]. split; [unfold within; cbn [alower aupper lo hi]; change (B2R (f64 2 0 : float64)) with (B2R (f64 2 0)); rewrite T2; lra|].
  split; [unfold within; cbn [alower aupper lo hi]; change (B2R (f64 1000 0 : float64)) with (B2R (f64 1000 0)); rewrite TK; lra|].
  split; [exact EZ|]. rewrite Zl, Zu. intros [H1 H2]. unfold Rpower in *. change (bpow radix2 (-46)) with (/ 70368744177664) in Be. apply Rabs_le_inv in Be. change (B2R (l_exp L p : float64)) with (B2R (l_exp L p)) in Be.
  set (z := B2R (l_exp L p)) in *. set (q := B2R p) in *. pose proof (exp_pos q) as Pq. pose proof (exp_pos (1000 * ln 2)) as Pk.
  destruct GM as [GM|GM].
  - assert (exp q * (1 + 3 / 70368744177664) <= exp (1000 * ln 2)); [|nra]. replace (exp (1000 * ln 2)) with (exp q * exp (1000 * ln 2 - q)) by (rewrite <- exp_plus; f_equal; lra).
    apply Rmult_le_compat_l; [lra|]. pose proof (exp_ineq1_le (1000 * ln 2 - q)). lra.
  - assert (exp (1000 * ln 2) * (1 + 3 / 70368744177664) <= exp q); [|nra]. replace (exp q) with (exp (1000 * ln 2) * exp (q - 1000 * ln 2)) by (rewrite <- exp_plus; f_equal; lra).
    apply Rmult_le_compat_l; [lra|]. pose proof (exp_ineq1_le (q - 1000 * ln 2)). lra.
Qed.
