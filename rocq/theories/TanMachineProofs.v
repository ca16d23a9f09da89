(** Machine intervals of tan and the exact tangent (C69). *)
From Coq Require Import Reals ZArith Bool Lra Lia.
From Flocq Require Import Core BinarySingleNaN.
From Verif Require Import Outcome SetModel MathModel FloatMath MathSpec FloatMathProofs Spec Num NumLaws IntervalModel IvlSpec IvlProofs XReal FloatNum FloatProofs
  ValueTypes MathProofs WrapProofs RoundSpec RoundProofs MachineSpec NumericFacts TrigProofs TrigMachineProofs SinMachineProofs RealNum MonoProofs PowNearProofs Atan2Proofs LibMachineProofs.
Open Scope R_scope.

(** ** The exact tangent *)
Lemma cos_abs_period x k : Rabs (cos (x + IZR k * PI)) = Rabs (cos x).
Proof.
  apply Rsqr_eq_abs_0. pose proof (cos_period_Z (2 * x) k) as E. replace (2 * x + IZR k * (2 * PI)) with (2 * (x + IZR k * PI)) in E by ring. rewrite !cos_2a_cos in E. unfold Rsqr. lra.
Qed.
Lemma cos_near_pole x : Rabs (cos x) <= Rabs (x - PI / 2) /\ Rabs (cos x) <= Rabs (x + PI / 2).
Proof.
  pose proof (cos_lipschitz x (PI / 2)) as A. pose proof (cos_lipschitz x (- (PI / 2))) as B. rewrite cos_neg in B. rewrite cos_PI2 in *.
  replace (x - - (PI / 2)) with (x + PI / 2) in B by ring. replace (cos x - 0) with (cos x) in * by ring. auto.
Qed.
Lemma tan_close x y c d : 0 < c -> 0 < d -> c <= Rabs (cos x) -> d <= Rabs (cos y) -> Rabs (tan x - tan y) <= Rabs (x - y) / (c * d).
Proof.
  intros Hc Hd Cx Cy. assert (N : forall z, 0 < Rabs (cos z) -> cos z <> 0) by (intros z Hz E; rewrite E, Rabs_R0 in Hz; lra).
  assert (Nx := N x ltac:(lra)). assert (Ny := N y ltac:(lra)).
  assert (E : tan x - tan y = sin (x - y) / (cos x * cos y)) by (unfold tan; rewrite sin_minus; field; auto).
  rewrite E. unfold Rdiv. rewrite Rabs_mult, Rabs_inv, Rabs_mult.
  assert (S : Rabs (sin (x - y)) <= Rabs (x - y)).
  { pose proof (cos_lipschitz (PI / 2 - (x - y)) (PI / 2)) as A. rewrite cos_shift, cos_PI2 in A. replace (PI / 2 - (x - y) - PI / 2) with (- (x - y)) in A by ring. rewrite Rabs_Ropp in A. now replace (sin (x - y) - 0) with (sin (x - y)) in A by ring. }
  apply Rmult_le_compat; [apply Rabs_pos| |exact S|].
  - left. apply Rinv_0_lt_compat. apply Rmult_lt_0_compat; lra.
  - apply Rinv_le; [now apply Rmult_lt_0_compat|]. apply Rmult_le_compat; lra.
Qed.
(** An interval without poles, close to the reduced one. *)
Lemma no_pole a b q s c : a <= b -> 0 < c -> (forall r, a <= r <= b -> c <= Rabs (cos r)) -> - q <= s <= q -> Rabs (s - a) + Rabs (q - PI / 2) < c -> Rabs (q - PI / 2) <= 1 -> Rabs (s - a) <= 1 ->
  - (PI / 2) + c <= a /\ b <= PI / 2 - c.
Proof.
  intros O Hc C Hs Hd H1 H2. pose proof pi_bounds as P. pose proof (C a ltac:(lra)) as Ca.
  assert (A1 : - (PI / 2) < a < PI / 2).
  { destruct (cos_near_pole a) as [K1 K2]. apply Rabs_le_inv in H1, H2. split; apply Rnot_le_lt; intros L.
    - rewrite (Rabs_left1 (a + PI / 2)) in K2 by lra. pose proof (Rle_abs (s - a)). pose proof (Rle_abs (q - PI / 2)). lra.
    - rewrite (Rabs_pos_eq (a - PI / 2)) in K1 by lra. pose proof (Rle_abs (- (s - a))) as Z. rewrite Rabs_Ropp in Z. pose proof (Rle_abs (q - PI / 2)). lra. }
  assert (B1 : b < PI / 2).
  { apply Rnot_le_lt. intros L. pose proof (C (PI / 2) ltac:(lra)) as K. rewrite cos_PI2, Rabs_R0 in K. lra. }
  destruct (cos_near_pole a) as [_ K2]. destruct (cos_near_pole b) as [K3 _]. pose proof (C b ltac:(lra)) as Cb. rewrite (Rabs_pos_eq (a + PI / 2)) in K2 by lra. rewrite (Rabs_left1 (b - PI / 2)) in K3 by lra. lra.
Qed.

Section Float.
  Context (prec emax : Z) (Hp : Prec_gt_0 prec) (He : Prec_lt_emax prec emax) (P4 : (4 <= prec)%Z).
  Existing Instance Hp.
  Existing Instance He.
  Notation F := (binary_float prec emax).
  Notation FN := (float_num prec emax Hp He).
  Notation fexp := (SpecFloat.fexp prec emax).
  Notation rnd := (round radix2 fexp ZnearestE).
  Notation u := (bpow radix2 (- prec)).
  Local Instance fexp_valid5 : Valid_exp fexp := fexp_correct prec emax Hp.
  Variables (L : libm F) (B : R) (dbg : bool).
  Hypothesis (Pi : nearest PI (l_pi L)) (HB : 0 <= B <= bpow radix2 (prec - 4)).
  Notation M := (float_math prec emax Hp He L).

  (** The reduction of the argument; the rest of the code is left to the caller. *)
  Lemma tan_reduce (X : ivl FN) : finite_arg (Iv X) -> bounded_by B (Iv X) -> exists (l h w : FN) (k : Z),
    itan M dbg X = (if o_le (l_pi L : FN) w then inf_interval else @from_unordered_bounds FN (l_tan L l) (l_tan L h))
    /\ is_finite (l : F) = true /\ is_finite (h : F) = true /\ is_finite (w : F) = true /\ is_finite (l_pi L) = true /\ Rabs (B2R (l_pi L) - PI) <= u * PI
    /\ - (B2R (l_pi L) / 2) <= B2R l <= B2R (l_pi L) / 2
    /\ Rabs (B2R l - (B2R (lo X) + IZR k * PI)) <= u * (2.14 * B + 13) /\ Rabs (B2R h - (B2R (hi X) + IZR k * PI)) <= u * (5.21 * B + 17)
    /\ Rabs (B2R h - B2R l - (B2R (hi X) - B2R (lo X))) <= u * (3.1 * B + 4) /\ B2R w = rnd (B2R h - B2R l).
  Proof.
    intros HX [Blo Bhi]. pose proof HX as (Flo & Fhi & Ord). cbn [alower aupper] in *.
    pose proof (u_pos prec) as U0. pose proof (u_small prec P4) as U1. pose proof (B_u prec B HB) as BU. pose proof (B_emax prec emax He B HB) as BE. pose proof pi_bounds as PB. pose proof (big_enough prec emax He P4) as G16. pose proof (emax5 prec emax He P4) as E5.
    destruct (pi_near prec emax He P4 _ Pi) as (Fp & _ & Np). set (p := l_pi L) in *. pose proof (Rabs_le_inv _ _ Np) as Np'.
    assert (M4 : 0 <= u * PI <= PI / 16 /\ u * PI <= 3.1416 * u) by (clear - U0 U1 PB; nra).
    assert (Bp : 2.9 <= B2R p <= 3.35) by lra. set (q := B2R p) in *.
    assert (M1 : 0 <= u * B <= / 16 /\ u * B <= B / 16) by (clear - U0 U1 BU HB; nra).
    assert (M2 : 0 <= u * q <= 3.35 * u) by (clear - U0 Bp; nra). assert (M3 : u * q <= q / 16) by (clear - U1 Bp; nra).
    assert (G8 : bpow radix2 (emax - 1) = 8 * bpow radix2 (emax - 4)).
    { replace (emax - 1)%Z with (emax - 4 + 3)%Z by ring. rewrite bpow_plus. change (bpow radix2 3) with 8. ring. }
    unfold itan. rewrite (dbg_assigned (denotes_ord (float_denotes prec emax Hp He))) by (now apply (finite_aproper prec emax Hp He (Iv X))).
    cbn [bind n_neg n_div float_num m_pi float_math]. fold p.
    destruct (two_real prec emax Hp He P4 L) as [F2 E2]. cbn [m_of_Z float_math] in F2, E2 |- *. set (two := binary_normalize _ _ _ _ _ _ _ _) in *.
    destruct (div_real prec emax Hp He p two Fp F2) as [Fh Eh]. { rewrite E2. lra. } { rewrite E2. fold q. apply Rabs_le. lra. }
    rewrite E2 in Eh. fold q in Eh. rewrite round_generic in Eh; [|auto with typeclass_instances|apply (half_format prec emax); [lra|exact E5|apply generic_format_B2R]].
    assert (Fo : is_finite (Bopp p) = true) by (now rewrite is_finite_Bopp).
    destruct (div_real prec emax Hp He (Bopp p) two Fo F2) as [Fm Em]. { rewrite E2. lra. } { rewrite B2R_Bopp, E2. fold q. apply Rabs_le. lra. }
    rewrite B2R_Bopp, E2 in Em. fold q in Em. replace (- q / 2) with (- (q / 2)) in Em by field.
    rewrite round_generic in Em; [|auto with typeclass_instances|apply generic_format_opp, (half_format prec emax); [lra|exact E5|apply generic_format_B2R]].
    set (hp := Bdiv mode_NE p two) in *.
    assert (Emh : Bdiv mode_NE (Bopp p) two = Bopp hp).
    { assert (S : forall v : F, is_finite v = true -> B2R v <> 0 -> is_finite_strict v = true) by (intros [ | | | ]; cbn; congruence).
      apply B2R_inj; [apply S; [exact Fm|rewrite Em; lra]|apply S; [now rewrite is_finite_Bopp|rewrite B2R_Bopp, Eh; lra]|]. rewrite Em, B2R_Bopp, Eh. reflexivity. }
    setoid_rewrite Emh. cbn [bind].
    destruct (wrap_near prec emax Hp He P4 L hp B Fh ltac:(rewrite Eh; lra) (conj (proj1 HB) BE) (lo X) Flo Blo) as (l & k & -> & Fl & Bl & Nl). cbn [bind n_sub n_add n_mul float_num].
    rewrite Eh in Bl, Nl. apply Rabs_le_inv in Blo, Bhi.
    destruct (sub_real prec emax Hp He l (lo X) Fl Flo) as (Fd & _ & Ed). { apply Rabs_le. lra. }
    set (d := Bminus mode_NE (l : F) (lo X : F)) in *.
    assert (Ed' : Rabs (B2R d - (B2R l - B2R (lo X))) <= u * (B + q / 2)) by (eapply Rle_trans; [exact Ed|]; apply Rmult_le_compat_l; [lra|]; apply Rabs_le; lra).
    clear Ed. pose proof (Rabs_le_inv _ _ Ed') as Ed. assert (Bd : Rabs (B2R d) <= 17 / 16 * (B + q / 2)) by (apply Rabs_le; lra). apply Rabs_le_inv in Bd.
    destruct (add_real prec emax Hp He (hi X) d Fhi Fd) as (Fhh & _ & Ehh). { apply Rabs_le. lra. }
    set (h := Bplus mode_NE (hi X : F) d) in *.
    assert (Eh' : Rabs (B2R h - (B2R (hi X) + B2R d)) <= u * (B + 17 / 16 * (B + q / 2))) by (eapply Rle_trans; [exact Ehh|]; apply Rmult_le_compat_l; [lra|]; apply Rabs_le; lra).
    clear Ehh. pose proof (Rabs_le_inv _ _ Eh') as Ehh.
    pose proof (Rabs_le_inv _ _ Nl) as Nl'.
    assert (Kq : Rabs (IZR k) * q <= q / 2 + B + u * (B + 3 * q)).
    { rewrite <- (Rabs_pos_eq q) at 1 by lra. rewrite <- Rabs_mult. apply Rabs_le. lra. }
    assert (Kp : Rabs (IZR k * q - IZR k * PI) <= u * (16 / 15 * (q / 2 + B + u * (B + 3 * q)))).
    { replace (IZR k * q - IZR k * PI) with (IZR k * (q - PI)) by ring. rewrite !Rabs_mult. pose proof (Rabs_pos (IZR k)) as Kpos.
      apply Rle_trans with (Rabs (IZR k) * (u * PI)); [apply Rmult_le_compat_l; [lra|exact Np]|].
      assert (PI <= 16 / 15 * q) by lra. apply Rle_trans with (u * (16 / 15 * (Rabs (IZR k) * q))); [|apply Rmult_le_compat_l; lra].
      replace (Rabs (IZR k) * (u * PI)) with (u * (Rabs (IZR k) * PI)) by ring. apply Rmult_le_compat_l; [lra|]. replace (16 / 15 * (Rabs (IZR k) * q)) with (Rabs (IZR k) * (16 / 15 * q)) by ring. apply Rmult_le_compat_l; lra. }
    assert (Kp' : Rabs (IZR k * q - IZR k * PI) <= u * (1.1334 * B + 2.6)).
    { eapply Rle_trans; [exact Kp|]. apply Rmult_le_compat_l; [lra|]. lra. }
    apply Rabs_le_inv in Kp'. set (t := IZR k * PI) in *.
    assert (Tl : Rabs (B2R l - (B2R (lo X) + t)) <= u * (2.14 * B + 13)) by (apply Rabs_le; lra).
    pose proof (Rabs_le_inv _ _ Tl) as Tl'.
    assert (Th : Rabs (B2R h - (B2R (hi X) + t)) <= u * (5.21 * B + 17)) by (apply Rabs_le; lra).
    assert (Tw : Rabs (B2R h - B2R l - (B2R (hi X) - B2R (lo X))) <= u * (3.1 * B + 4)) by (apply Rabs_le; lra).
    pose proof (Rabs_le_inv _ _ Tw) as Tw'.
    destruct (sub_real prec emax Hp He h l Fhh Fl) as (Fw & Ew & _). { apply Rabs_le. lra. }
    exists l, h, (Bminus mode_NE (h : F) (l : F)), k. split; [reflexivity|].
    split; [exact Fl|]. split; [exact Fhh|]. split; [exact Fw|]. split; [exact Fp|]. split; [exact Np|]. split; [exact Bl|]. split; [exact Tl|]. split; [exact Th|]. split; [exact Tw|exact Ew].
  Qed.

  Lemma tan_wide (X : ivl FN) : finite_arg (Iv X) -> bounded_by B (Iv X) -> PI + u * (4 * B + 8) <= B2R (hi X) - B2R (lo X) -> exists Z, itan M dbg X = Ret Z /\ lo Z = n_bot /\ hi Z = n_top.
  Proof.
    intros HX BX W. destruct (tan_reduce X HX BX) as (l & h & w & k & -> & Fl & Fh & Fw & Fp & Np & Bl & _ & _ & Tw & Ew).
    pose proof (u_pos prec) as U0. pose proof (u_small prec P4) as U1. pose proof pi_bounds as PB. apply Rabs_le_inv in Np, Tw.
    assert (M4 : u * PI <= 3.1416 * u) by (clear - U0 PB; nra). assert (MB : 0 <= u * B) by (clear - U0 HB; nra).
    assert (K : B2R (l_pi L) <= B2R w).
    { rewrite Ew. apply round_ge_generic; auto with typeclass_instances; [apply generic_format_B2R|lra]. }
    replace (o_le (l_pi L : FN) w) with true by (symmetry; now apply (le_B2R prec emax Hp He)). eexists. split; [reflexivity|]. split; reflexivity.
  Qed.
  Lemma tan_near eps c (X : ivl FN) : @tan_within prec emax Hp He eps (c / 2) (l_tan L) -> finite_arg (Iv X) -> bounded_by B (Iv X) ->
    (forall r, within (Iv X) r -> c <= Rabs (cos r)) -> u * (6 * B + 20) <= c / 2 ->
    near_range (eps + 2 * (u * (6 * B + 20)) / (c * c)) tan (itan M dbg X) (Iv X).
  Proof.
    intros T HX BX C Hd. destruct (tan_reduce X HX BX) as (l & h & w & k & -> & Fl & Fh & Fw & Fp & Np & Bl & Tl & Th & _ & Ew).
    pose proof (u_pos prec) as U0. pose proof (u_small prec P4) as U1. pose proof pi_bounds as PB. pose proof HX as (_ & _ & Ord). cbn [alower aupper] in Ord.
    assert (M4 : u * PI <= 3.1416 * u) by (clear - U0 PB; nra). assert (MB : 0 <= u * B) by (clear - U0 HB; nra).
    set (d := u * (6 * B + 20)) in *. assert (D0 : u * (2.14 * B + 13) <= d - 5 * u /\ u * (5.21 * B + 17) <= d - 3 * u /\ 20 * u <= d) by (unfold d; lra).
    set (t := IZR k * PI) in *. set (a := B2R (lo X) + t) in *. set (b := B2R (hi X) + t) in *. set (q := B2R (l_pi L)) in *.
    assert (c0 : 0 < c) by lra. assert (c1 : c <= 1).
    { pose proof (C (B2R (lo X)) ltac:(unfold within; cbn [alower aupper]; lra)) as K. pose proof (COS_bound (B2R (lo X))) as K'. assert (Rabs (cos (B2R (lo X))) <= 1) by (apply Rabs_le; lra). lra. }
    assert (Cab : forall r, a <= r <= b -> c <= Rabs (cos r)).
    { intros r Hr. rewrite <- (cos_abs_period r (- k)). apply C. unfold within. cbn [alower aupper]. rewrite opp_IZR. fold t. unfold a, b in Hr. replace (r + - IZR k * PI) with (r - t) by (unfold t; ring). lra. }
    assert (Hq : Rabs (q / 2 - PI / 2) <= 2 * u) by (apply Rabs_le_inv in Np; apply Rabs_le; lra).
    destruct (no_pole a b (q / 2) (B2R l) c ltac:(unfold a, b; lra) c0 Cab Bl ltac:(lra) ltac:(lra) ltac:(lra)) as [A1 B1].
    pose proof (Rabs_le_inv _ _ Tl) as Tl'. pose proof (Rabs_le_inv _ _ Th) as Th'. pose proof (Rabs_le_inv _ _ Np) as Np'.
    assert (ab : a <= b) by (unfold a, b; lra).
    (* the width is less than pi *)
    assert (Kw : B2R w < q).
    { assert (S : Rabs (B2R h - B2R l) <= PI - c) by (apply Rabs_le; lra).
      assert (R : Rabs (rnd (B2R h - B2R l) - (B2R h - B2R l)) <= u * (Rabs (B2R h - B2R l) + 1)) by apply (rnd_error prec emax Hp He).
      assert (R' : u * (Rabs (B2R h - B2R l) + 1) <= 5 * u) by (clear - S PB U0 c0; assert (Rabs (B2R h - B2R l) + 1 <= 5) by lra; nra).
      pose proof (Rle_abs (rnd (B2R h - B2R l) - (B2R h - B2R l))). pose proof (Rle_abs (B2R h - B2R l)). rewrite Ew. lra. }
    replace (o_le (l_pi L : FN) w) with false.
    2:{ symmetry. destruct (o_le (l_pi L : FN) w) eqn:E; [|reflexivity]. apply (le_B2R prec emax Hp He) in E; auto. fold q in E. lra. }
    (* the tangents of the ends *)
    assert (Near : forall (v : FN) r, is_finite (v : F) = true -> - (PI / 2) <= B2R v <= PI / 2 -> c <= Rabs (cos r) -> Rabs (B2R v - r) <= d ->
      is_finite (l_tan L v) = true /\ Rabs (B2R (l_tan L v) - tan r) <= eps + 2 * d / (c * c)).
    { intros v r Fv Bv Cr Hv. assert (Cv : c / 2 <= Rabs (cos (B2R v))).
      { pose proof (cos_lipschitz (B2R v) r). pose proof (Rabs_triang_inv (cos r) (cos (B2R v))). rewrite (Rabs_minus_sym (cos r)) in *. lra. }
      destruct (T v Fv ltac:(apply Rabs_le; lra) Cv) as [G1 G2]. split; [exact G1|].
      pose proof (tan_close (B2R v) r (c / 2) c ltac:(lra) c0 Cv Cr) as K.
      replace (B2R (l_tan L v) - tan r) with ((B2R (l_tan L v) - tan (B2R v)) + (tan (B2R v) - tan r)) by ring. eapply Rle_trans; [apply Rabs_triang|].
      assert (Rabs (B2R v - r) / (c / 2 * c) <= 2 * d / (c * c)); [|lra].
      replace (2 * d / (c * c)) with (d / (c / 2 * c)) by (field; lra). apply Rmult_le_compat_r; [|exact Hv]. left. apply Rinv_0_lt_compat. apply Rmult_lt_0_compat; lra. }
    destruct (Near l a Fl ltac:(lra) (Cab a ltac:(lra)) ltac:(lra)) as [G1 N1]. destruct (Near h b Fh ltac:(lra) (Cab b ltac:(lra)) ltac:(lra)) as [G2 N2].
    assert (Per : forall r, B2R (lo X) <= r <= B2R (hi X) -> tan (r + t) = tan r).
    { intros r Hr. apply tan_period_Z. intros Z. pose proof (C r Hr) as K. rewrite Z, Rabs_R0 in K. lra. }
    assert (Mo : monotone tan (B2R (lo X)) (B2R (hi X))).
    { left. intros x y Hx Hxy Hy. rewrite <- (Per x), <- (Per y) by lra. apply tan_le; unfold a, b in *; lra. }
    unfold a in N1. unfold b in N2. rewrite Per in N1, N2 by lra.
    destruct (ends_near tan _ _ _ _ _ Ord Mo N1 N2) as (R1 & R2 & R3).
    rewrite (fub_real prec emax Hp He _ _ G1 G2). destruct (omin_real prec emax Hp He _ _ G1 G2) as [Q1 Q2], (omax_real prec emax Hp He _ _ G1 G2) as [Q3 Q4].
    eexists. split; [reflexivity|]. split; [split; [exact Q1|split; [exact Q3|]]; cbn [alower aupper lo hi]; setoid_rewrite Q2; setoid_rewrite Q4; unfold Rmin, Rmax; repeat destruct Rle_dec; lra|].
    cbn [lo hi]. setoid_rewrite Q2. setoid_rewrite Q4. split; [exact R1|]. split; [exact R2|exact R3].
  Qed.

  (** Intervals narrower than a period that contain a pole get bounded results. *)
  Lemma tan_pole eps c (X : ivl FN) : @tan_within prec emax Hp He eps (c / 2) (l_tan L) -> finite_arg (Iv X) -> bounded_by B (Iv X) ->
    c <= Rabs (cos (B2R (lo X))) -> c <= Rabs (cos (B2R (hi X))) -> u * (6 * B + 20) <= c / 2 -> B2R (hi X) - B2R (lo X) <= PI - u * (4 * B + 20) ->
    forall k, within (Iv X) (PI / 2 + IZR k * PI) ->
    exists Z, itan M dbg X = Ret Z /\ finite_arg (Iv Z) /\ forall d, exists r, within (Iv X) r /\ cos r <> 0 /\ B2R (hi Z) + d < tan r.
  Proof.
    intros T HX BX Cl Ch Hd W j Hj. destruct (tan_reduce X HX BX) as (l & h & w & k & -> & Fl & Fh & Fw & Fp & Np & Bl & Tl & Th & Tw & Ew).
    pose proof (u_pos prec) as U0. pose proof (u_small prec P4) as U1. pose proof pi_bounds as PB. pose proof HX as (_ & _ & Ord). cbn [alower aupper] in Ord.
    assert (M4 : u * PI <= 3.1416 * u) by (clear - U0 PB; nra). assert (MB : 0 <= u * B) by (clear - U0 HB; nra).
    set (d := u * (6 * B + 20)) in *. assert (D0 : u * (2.14 * B + 13) <= d - 5 * u /\ u * (5.21 * B + 17) <= d - 3 * u /\ 20 * u <= d) by (unfold d; lra).
    set (t := IZR k * PI) in *. set (q := B2R (l_pi L)) in *.
    pose proof (Rabs_le_inv _ _ Tl) as Tl'. pose proof (Rabs_le_inv _ _ Th) as Th'. pose proof (Rabs_le_inv _ _ Np) as Np'. pose proof (Rabs_le_inv _ _ Tw) as Tw'.
    assert (c0 : 0 < c) by lra. assert (c1 : c <= 1).
    { pose proof (COS_bound (B2R (lo X))) as K'. assert (Rabs (cos (B2R (lo X))) <= 1) by (apply Rabs_le; lra). lra. }
    assert (Kw : B2R w < q).
    { assert (S : Rabs (B2R h - B2R l) <= PI - 16 * u) by (apply Rabs_le; lra).
      assert (R : Rabs (rnd (B2R h - B2R l) - (B2R h - B2R l)) <= u * (Rabs (B2R h - B2R l) + 1)) by apply (rnd_error prec emax Hp He).
      assert (R' : u * (Rabs (B2R h - B2R l) + 1) <= 5 * u) by (clear - S PB U0; assert (Rabs (B2R h - B2R l) + 1 <= 5) by lra; nra).
      pose proof (Rle_abs (rnd (B2R h - B2R l) - (B2R h - B2R l))). pose proof (Rle_abs (B2R h - B2R l)). rewrite Ew. lra. }
    replace (o_le (l_pi L : FN) w) with false.
    2:{ symmetry. destruct (o_le (l_pi L : FN) w) eqn:E; [|reflexivity]. apply (le_B2R prec emax Hp He) in E; auto. fold q in E. lra. }
    assert (Fin : forall (v : FN) r, is_finite (v : F) = true -> Rabs (B2R v) <= 5 -> c <= Rabs (cos r) -> Rabs (B2R v - (r + t)) <= d -> is_finite (l_tan L v) = true).
    { intros v r Fv Bv Cr Hv. apply (T v Fv Bv). unfold t in Hv. rewrite <- (cos_abs_period r k) in Cr.
      pose proof (cos_lipschitz (B2R v) (r + IZR k * PI)). pose proof (Rabs_triang_inv (cos (r + IZR k * PI)) (cos (B2R v))). rewrite (Rabs_minus_sym (cos (r + _))) in *. lra. }
    pose proof (Fin l _ Fl ltac:(apply Rabs_le; lra) Cl ltac:(lra)) as G1. pose proof (Fin h _ Fh ltac:(apply Rabs_le; lra) Ch ltac:(lra)) as G2.
    rewrite (fub_real prec emax Hp He _ _ G1 G2). destruct (omin_real prec emax Hp He _ _ G1 G2) as [Q1 Q2], (omax_real prec emax Hp He _ _ G1 G2) as [Q3 Q4].
    eexists. split; [reflexivity|]. split; [split; [exact Q1|split; [exact Q3|]]; cbn [alower aupper lo hi]; setoid_rewrite Q2; setoid_rewrite Q4; unfold Rmin, Rmax; repeat destruct Rle_dec; lra|].
    intros e. match goal with |- context [?m + e] => set (z := m + e) end.
    (* a value beyond z to the left of the pole *)
    set (x := B2R (lo X) - IZR j * PI). set (y := Rmax (z + 1) (tan x)).
    assert (Lx : x < PI / 2).
    { unfold within in Hj. cbn [alower aupper] in Hj. destruct (Rle_lt_or_eq_dec x (PI / 2) ltac:(unfold x; lra)) as [|Q]; auto. exfalso.
      rewrite <- (cos_abs_period (B2R (lo X)) (- j)) in Cl. rewrite opp_IZR in Cl. replace (B2R (lo X) + - IZR j * PI) with (PI / 2) in Cl by (rewrite <- Q; unfold x; ring). rewrite cos_PI2, Rabs_R0 in Cl. lra. }
    pose proof (atan_bound y) as Ab. exists (atan y + IZR j * PI). assert (Cy : cos (atan y) <> 0) by (apply Rgt_not_eq, cos_gt_0; lra). split; [|split].
    - unfold within in *. cbn [alower aupper] in *. split; [|lra]. assert (x <= atan y); [|unfold x in *; lra].
      destruct (Rle_or_lt x (- PI / 2)) as [|K]; [lra|]. rewrite <- (atan_tan x) by lra. apply atan_le. apply Rmax_r.
    - now apply cos_period_pi.
    - rewrite tan_period_Z, tan_atan by exact Cy. pose proof (Rmax_l (z + 1) (tan x)). unfold y. lra.
  Qed.
End Float.

(** ** A correctly rounded C library satisfies the hypotheses *)
Lemma tan_example (NL := nearest_libm 53 1024 prec_gt_0_53 prec_lt_emax_64) (X := Ivl (f64 0 0) (f64 1 (-1)) : ivl float64) (W := Ivl (f64 0 0) (f64 3 0) : ivl float64) (V := Ivl (f64 0 0) (f64 4 0) : ivl float64) :
  nearest PI (l_pi NL) /\ @tan_within 53 1024 prec_gt_0_53 prec_lt_emax_64 (bpow radix2 (-53) * (4 + 1)) (/ 2 / 2) (l_tan NL) /\ 4 <= bpow radix2 (53 - 4) /\ bpow radix2 (-53) * (6 * 4 + 20) <= / 2 / 2
  /\ finite_arg (Iv X) /\ bounded_by 4 (Iv X) /\ (forall r, within (Iv X) r -> / 2 <= Rabs (cos r))
  /\ finite_arg (Iv W) /\ bounded_by 4 (Iv W) /\ / 2 <= Rabs (cos (B2R (lo W))) /\ / 2 <= Rabs (cos (B2R (hi W))) /\ B2R (hi W) - B2R (lo W) <= PI - bpow radix2 (-53) * (4 * 4 + 20) /\ within (Iv W) (PI / 2 + IZR 0 * PI)
  /\ finite_arg (Iv V) /\ bounded_by 4 (Iv V) /\ PI + bpow radix2 (-53) * (4 * 4 + 8) <= B2R (hi V) - B2R (lo V).
Proof.
  assert (E0 : B2R (f64 0 0) = 0) by reflexivity. assert (E1 : B2R (f64 1 (-1)) = / 2) by (unfold B2R, F2R; cbn; lra). assert (E3 : B2R (f64 3 0) = 3) by (unfold B2R, F2R; cbn; lra). assert (E4 : B2R (f64 4 0) = 4) by (unfold B2R, F2R; cbn; lra).
  pose proof pi_bounds as P. assert (U : bpow radix2 (-53) = / 9007199254740992) by reflexivity.
  split; [apply nearest_float_spec|]. split.
  { intros v Fv Bv Cv. cbn [l_tan NL nearest_libm]. apply nearest_within; [|apply Rle_trans with (bpow radix2 2); [cbn; lra|apply bpow_le; lia]].
    unfold tan, Rdiv. rewrite Rabs_mult, Rabs_inv. pose proof (SIN_bound (B2R v)) as S. assert (Rabs (sin (B2R v)) <= 1) by (apply Rabs_le; lra).
    replace 4 with (1 * / (/ 2 / 2)) by field. apply Rmult_le_compat; [apply Rabs_pos| |assumption|]; [left; apply Rinv_0_lt_compat; lra|]. apply Rinv_le; [lra|exact Cv]. }
  split; [apply Rle_trans with (bpow radix2 2); [cbn; lra|apply bpow_le; lia]|]. rewrite U. split; [lra|].
  unfold finite_arg, bounded_by, within, X, W, V. cbn [alower aupper lo hi]. change (B2R (f64 0 0 : float64)) with (B2R (f64 0 0)). change (B2R (f64 1 (-1) : float64)) with (B2R (f64 1 (-1))). change (B2R (f64 3 0 : float64)) with (B2R (f64 3 0)). change (B2R (f64 4 0 : float64)) with (B2R (f64 4 0)).
  rewrite E0, E1, E3, E4, cos_0, Rabs_R0. rewrite !(Rabs_pos_eq (/ 2)), (Rabs_pos_eq 3), (Rabs_pos_eq 4), (Rabs_pos_eq 1) by lra.
  split; [split; [reflexivity|split; [reflexivity|lra]]|]. split; [lra|]. split.
  { intros r Hr. pose proof (cos_lipschitz r 0) as K. rewrite cos_0 in K. replace (r - 0) with r in K by ring. rewrite (Rabs_pos_eq r) in K by lra. apply Rabs_le_inv in K. rewrite Rabs_pos_eq by lra. lra. }
  split; [split; [reflexivity|split; [reflexivity|lra]]|]. split; [lra|]. split; [lra|]. split.
  { pose proof (cos_lipschitz 3 PI) as K. rewrite cos_PI in K. rewrite (Rabs_left1 (3 - PI)) in K by lra. apply Rabs_le_inv in K. rewrite Rabs_left1 by lra. lra. }
  split; [lra|]. split; [lra|]. split; [split; [reflexivity|split; [reflexivity|lra]]|]. split; lra.
Qed.
