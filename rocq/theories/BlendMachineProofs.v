(** Machine results of fractional_weights, blend_fractions and blend_linear and the exact values (C70). *)
From Coq Require Import Reals ZArith Bool Lra Lia.
From Flocq Require Import Core BinarySingleNaN.
From Verif Require Import Outcome SetModel MathModel FloatMath MathSpec FloatMathProofs Spec Num NumLaws IntervalModel IvlSpec IvlProofs XReal FloatNum FloatProofs
  ValueTypes MathProofs RoundSpec RoundProofs WrapProofs MachineSpec NumericFacts TrigMachineProofs SinMachineProofs BlendProofs PowNearProofs PowLibProofs LibMachineProofs.
Open Scope R_scope.

(** ** Real numbers *)
Local Ltac destruct_le := match goal with |- context [Rle_bool ?a ?b] => destruct (Rle_bool a b) end.
Definition mixr (f r s : R) : R := f * r + (1 - f) * s.
Definition mixl (a b r s : R) : R := (a * r + b * s) / (a + b).
Lemma mixr_low f fl fh r xl s yl : fl <= f <= fh -> 0 <= fl -> fh <= 1 -> xl <= r -> yl <= s -> mixr (if Rle_bool yl xl then fl else fh) xl yl <= mixr f r s.
Proof.
  intros Hf H0 H1 Hr Hs. apply Rle_trans with (mixr f xl yl); unfold mixr.
  - destruct (Rle_bool_spec yl xl).
    + pose proof (Rmult_le_pos (f - fl) (xl - yl) ltac:(lra) ltac:(lra)). lra.
    + pose proof (Rmult_le_pos (fh - f) (yl - xl) ltac:(lra) ltac:(lra)). lra.
  - pose proof (Rmult_le_pos f (r - xl) ltac:(lra) ltac:(lra)). pose proof (Rmult_le_pos (1 - f) (s - yl) ltac:(lra) ltac:(lra)). lra.
Qed.
Lemma mixr_high f fl fh r xh s yh : fl <= f <= fh -> 0 <= fl -> fh <= 1 -> r <= xh -> s <= yh -> mixr f r s <= mixr (if Rle_bool yh xh then fh else fl) xh yh.
Proof.
  intros Hf H0 H1 Hr Hs. apply Rle_trans with (mixr f xh yh); unfold mixr.
  - pose proof (Rmult_le_pos f (xh - r) ltac:(lra) ltac:(lra)). pose proof (Rmult_le_pos (1 - f) (yh - s) ltac:(lra) ltac:(lra)). lra.
  - destruct (Rle_bool_spec yh xh).
    + pose proof (Rmult_le_pos (fh - f) (xh - yh) ltac:(lra) ltac:(lra)). lra.
    + pose proof (Rmult_le_pos (f - fl) (yh - xh) ltac:(lra) ltac:(lra)). lra.
Qed.
(** The values lie between those of [r] and [s], and change little with the fraction. *)
Lemma mixr_abs f r s B : 0 <= f <= 1 -> Rabs r <= B -> Rabs s <= B -> Rabs (mixr f r s) <= B.
Proof.
  intros Hf Hr Hs. unfold mixr. eapply Rle_trans; [apply Rabs_triang|]. rewrite !Rabs_mult, (Rabs_pos_eq f), (Rabs_pos_eq (1 - f)) by lra.
  pose proof (Rmult_le_compat_l f _ _ ltac:(lra) Hr). pose proof (Rmult_le_compat_l (1 - f) _ _ ltac:(lra) Hs). lra.
Qed.
Lemma mixr_move f g r s B e : Rabs (f - g) <= e -> Rabs r <= B -> Rabs s <= B -> Rabs (mixr f r s - mixr g r s) <= e * (2 * B).
Proof.
  intros Hf Hr Hs. replace (mixr f r s - mixr g r s) with ((f - g) * (r - s)) by (unfold mixr; ring). rewrite Rabs_mult.
  apply Rmult_le_compat; auto using Rabs_pos. eapply Rle_trans; [apply (Rabs_triang r (- s))|]. rewrite Rabs_Ropp. lra.
Qed.
Lemma mixl_mixr a b r s : 0 < a + b -> mixl a b r s = mixr (a / (a + b)) r s.
Proof. intros H. unfold mixl, mixr. field. lra. Qed.
(** The fraction grows with the first weight and falls with the second. *)
Lemma fraction_mono a b c d : 0 <= a <= c -> 0 <= d <= b -> 0 < a + d -> a / (a + b) <= c / (c + d).
Proof.
  intros Ha Hb H. apply (Rmult_le_reg_r ((a + b) * (c + d))); [apply Rmult_lt_0_compat; lra|].
  replace (a / (a + b) * ((a + b) * (c + d))) with (a * (c + d)) by (field; lra). replace (c / (c + d) * ((a + b) * (c + d))) with (c * (a + b)) by (field; lra).
  pose proof (Rmult_le_compat a c d b ltac:(lra) ltac:(lra) ltac:(lra) ltac:(lra)). lra.
Qed.
Lemma fraction_unit a b : 0 <= a -> 0 <= b -> 0 < a + b -> 0 <= a / (a + b) <= 1.
Proof.
  intros Ha Hb H. split; [apply Rmult_le_pos; [lra|left; now apply Rinv_0_lt_compat]|]. apply (Rmult_le_reg_r (a + b)); [lra|]. unfold Rdiv. rewrite Rmult_assoc, Rinv_l by lra. lra.
Qed.

(** The length of (r, s) *)
Definition len (r s : R) : R := sqrt (r * r + s * s).
Lemma sq_nonneg r s : 0 <= r * r + s * s.
Proof. pose proof (Rle_0_sqr r). pose proof (Rle_0_sqr s). unfold Rsqr in *. lra. Qed.
Lemma len_abs r s : len r s <= Rabs r + Rabs s.
Proof.
  unfold len. pose proof (Rabs_pos r) as P. pose proof (Rabs_pos s) as Q. rewrite <- (sqrt_square (Rabs r + Rabs s)) by lra. apply sqrt_le_1_alt.
  replace (r * r) with (Rabs r * Rabs r) by (rewrite <- Rabs_mult; apply Rabs_pos_eq, Rle_0_sqr). replace (s * s) with (Rabs s * Rabs s) by (rewrite <- Rabs_mult; apply Rabs_pos_eq, Rle_0_sqr).
  pose proof (Rmult_le_pos _ _ P Q). lra.
Qed.
Lemma len_triangle p q P Q : len p q <= len P Q + len (p - P) (q - Q).
Proof.
  pose proof (triangle 0 0 p q P Q) as T. unfold dist_euc in T. unfold len. rewrite !Rsqr_minus_0 in T || idtac. unfold Rsqr in T.
  replace ((0 - p) * (0 - p) + (0 - q) * (0 - q)) with (p * p + q * q) in T by ring. replace ((0 - P) * (0 - P) + (0 - Q) * (0 - Q)) with (P * P + Q * Q) in T by ring.
  replace ((P - p) * (P - p) + (Q - q) * (Q - q)) with ((p - P) * (p - P) + (q - Q) * (q - Q)) in T by ring. exact T.
Qed.
Lemma len_close p q P Q : Rabs (len p q - len P Q) <= Rabs (p - P) + Rabs (q - Q).
Proof.
  pose proof (len_triangle p q P Q) as A. pose proof (len_triangle P Q p q) as B. pose proof (len_abs (p - P) (q - Q)) as C. pose proof (len_abs (P - p) (Q - q)) as E.
  rewrite (Rabs_minus_sym P), (Rabs_minus_sym Q) in E. apply Rabs_le. lra.
Qed.
(** Square roots of numbers with a relative and an absolute error. *)
Lemma sqrt_close s X e C : 0 <= X -> 0 <= s -> 0 <= e <= 1 -> 0 <= C -> Rabs (s - X) <= e * X + C * C -> Rabs (sqrt s - sqrt X) <= e * sqrt X + C.
Proof.
  intros HX Hs He HC H. apply Rabs_le_inv in H. pose proof (sqrt_pos X) as P. pose proof (sqrt_pos s) as Q. pose proof (sqrt_sqrt X HX) as E. pose proof (sqrt_sqrt s Hs) as E'. set (a := sqrt X) in *. set (b := sqrt s) in *.
  rewrite <- E, <- E' in H. clearbody a b. clear E E' HX Hs X s. pose proof (Rmult_le_pos e a ltac:(lra) P) as EA.
  apply Rabs_le. split; apply Rnot_lt_le; intros K.
  - assert (K1 : b + C < (1 - e) * a) by lra. pose proof (Rmult_lt_compat (b + C) _ (b + C) _ ltac:(lra) ltac:(lra) K1 K1) as K2.
    assert (K3 : (1 - e) * a * ((1 - e) * a) <= (1 - e) * (a * a)). { pose proof (Rmult_le_pos (e * a) ((1 - e) * a) EA ltac:(apply Rmult_le_pos; lra)). lra. }
    pose proof (Rmult_le_pos b C Q HC). lra.
  - assert (K1 : (1 + e) * a + C < b) by lra. assert (K0 : 0 <= (1 + e) * a + C) by lra. pose proof (Rmult_lt_compat _ _ _ _ K0 K0 K1 K1) as K2.
    pose proof (Rmult_le_pos a C P HC). pose proof (Rmult_le_pos (e * a) C EA HC). pose proof (Rmult_le_pos (e * a) a EA P). pose proof (Rmult_le_pos (e * a) (e * a) EA EA). lra.
Qed.

Section Machine.
  Variables (prec emax : Z) (Hp : Prec_gt_0 prec) (He : Prec_lt_emax prec emax).
  Existing Instance Hp.
  Existing Instance He.
  Hypothesis P2 : (2 <= prec)%Z.
  Notation F := (binary_float prec emax).
  Notation FN := (float_num prec emax Hp He).
  Notation fexp := (SpecFloat.fexp prec emax).
  Notation rnd := (round radix2 fexp ZnearestE).
  Notation u := (bpow radix2 (- prec)).
  Notation f2x := (f2x prec emax).
  Notation rd := (rd prec emax).
  Local Instance valid_fexp : Valid_exp fexp := fexp_correct prec emax Hp.
  Notation D := (float_denotes prec emax Hp He).

  Lemma emax3 : (3 <= emax)%Z. Proof. pose proof He as H. unfold Prec_lt_emax in H. lia. Qed.
  Lemma u_quarter : 0 < u <= / 4.
  Proof. split; [apply bpow_gt_0|]. replace (/ 4) with (bpow radix2 (- 2)) by (cbn; lra). apply bpow_le. lia. Qed.
  Lemma top_three : 4 * bpow radix2 (emax - 3) = bpow radix2 (emax - 1).
  Proof. replace (emax - 1)%Z with (emax - 3 + 2)%Z by lia. rewrite bpow_plus. change (bpow radix2 2) with 4. ring. Qed.
  Lemma low_three : 1 <= bpow radix2 (emax - 3).
  Proof. change 1 with (bpow radix2 0). apply bpow_le. pose proof emax3. lia. Qed.
  Lemma rnd_one : rnd 1 = 1.
  Proof. apply round_generic; [auto with typeclass_instances|]. replace 1 with (bpow radix2 0) by reflexivity. apply generic_format_bpow. pose proof emax3. unfold SpecFloat.fexp, SpecFloat.emin. lia. Qed.
  Lemma rnd_unit p : 0 <= p <= 1 -> 0 <= rnd p <= 1.
  Proof. intros H. split; [rewrite <- (round_0 radix2 fexp ZnearestE)|rewrite <- rnd_one]; apply round_le; auto with typeclass_instances; lra. Qed.
  Lemma rnd_unit_error p : 0 <= p <= 1 -> Rabs (rnd p - p) <= 2 * u.
  Proof. intros H. eapply Rle_trans; [apply rnd_error; assumption|]. rewrite Rabs_pos_eq by lra. pose proof u_quarter. nra. Qed.

  (** q v + (1 - q) w *)
  Definition mixf (q v w : F) : F := Bplus mode_NE (Bmult mode_NE q v) (Bmult mode_NE (Bminus mode_NE (@n_one FN : F) q) w).
  Lemma mix_near B (q v w : F) : 0 <= B <= bpow radix2 (emax - 3) -> is_finite q = true -> 0 <= B2R q <= 1 -> is_finite v = true -> Rabs (B2R v) <= B -> is_finite w = true -> Rabs (B2R w) <= B ->
    is_finite (mixf q v w) = true /\ Rabs (B2R (mixf q v w) - mixr (B2R q) (B2R v) (B2R w)) <= u * (6 * B + 3).
  Proof.
    intros HB Fq Hq Fv Hv Fw Hw. pose proof u_quarter as U. pose proof low_three as L3. pose proof top_three as T3. destruct (one_real prec emax Hp He) as [F1 E1].
    assert (A1 : Rabs (B2R q * B2R v) <= B). { rewrite Rabs_mult, (Rabs_pos_eq (B2R q)) by lra. pose proof (Rmult_le_compat (B2R q) 1 _ _ ltac:(lra) (Rabs_pos _) ltac:(lra) Hv). lra. }
    destruct (mult_real prec emax Hp He q v Fq Fv ltac:(lra)) as [G1 R1].
    destruct (sub_real prec emax Hp He (@n_one FN) q F1 Fq) as (G2 & R2 & S2). { rewrite E1, Rabs_pos_eq by lra. lra. }
    rewrite E1 in R2, S2. assert (V2 : 0 <= B2R (Bminus mode_NE (@n_one FN : F) q) <= 1) by (setoid_rewrite R2; apply rnd_unit; lra).
    assert (N2 : Rabs (B2R (Bminus mode_NE (@n_one FN : F) q) - (1 - B2R q)) <= u).
    { eapply Rle_trans; [exact S2|]. rewrite Rabs_pos_eq by lra. nra. }
    set (g := Bminus mode_NE (@n_one FN : F) q) in *.
    assert (A3 : Rabs (B2R g * B2R w) <= B). { rewrite Rabs_mult, (Rabs_pos_eq (B2R g)) by lra. pose proof (Rmult_le_compat (B2R g) 1 _ _ ltac:(lra) (Rabs_pos _) ltac:(lra) Hw). lra. }
    destruct (mult_real prec emax Hp He g w G2 Fw ltac:(lra)) as [G3 R3].
    assert (D1 : Rabs (B2R (Bmult mode_NE q v) - B2R q * B2R v) <= u * (B + 1)).
    { rewrite R1. eapply Rle_trans; [apply rnd_error; assumption|]. apply Rmult_le_compat_l; lra. }
    assert (D3 : Rabs (B2R (Bmult mode_NE g w) - B2R g * B2R w) <= u * (B + 1)).
    { rewrite R3. eapply Rle_trans; [apply rnd_error; assumption|]. apply Rmult_le_compat_l; lra. }
    assert (D4 : Rabs (B2R g * B2R w - (1 - B2R q) * B2R w) <= u * B).
    { replace (B2R g * B2R w - (1 - B2R q) * B2R w) with ((B2R g - (1 - B2R q)) * B2R w) by ring. rewrite Rabs_mult. apply Rmult_le_compat; auto using Rabs_pos. }
    pose proof (mixr_abs (B2R q) (B2R v) (B2R w) B Hq Hv Hw) as A0.
    set (p1 := B2R (Bmult mode_NE q v)) in *. set (p2 := B2R (Bmult mode_NE g w)) in *. set (m := mixr (B2R q) (B2R v) (B2R w)) in *.
    assert (D5 : Rabs (p1 + p2 - m) <= u * (3 * B + 2)).
    { unfold m, mixr. replace (p1 + p2 - (B2R q * B2R v + (1 - B2R q) * B2R w)) with ((p1 - B2R q * B2R v) + ((p2 - B2R g * B2R w) + (B2R g * B2R w - (1 - B2R q) * B2R w))) by ring.
      eapply Rle_trans; [apply Rabs_triang|]. pose proof (Rabs_triang (p2 - B2R g * B2R w) (B2R g * B2R w - (1 - B2R q) * B2R w)). lra. }
    assert (UB : u * B <= / 4 * B) by (apply Rmult_le_compat_r; lra). assert (UB0 : 0 <= u * B) by (apply Rmult_le_pos; lra).
    assert (A5 : Rabs (p1 + p2) <= B + u * (3 * B + 2)). { replace (p1 + p2) with ((p1 + p2 - m) + m) by ring. eapply Rle_trans; [apply Rabs_triang|]. lra. }
    assert (UU : u * (3 * B + 2) <= B + 1) by lra.
    destruct (add_real prec emax Hp He (Bmult mode_NE q v) (Bmult mode_NE g w) G1 G3) as (G5 & _ & S5). { fold p1 p2. lra. }
    fold p1 p2 in S5. split; [exact G5|]. unfold mixf. fold g. set (z := B2R (Bplus mode_NE (Bmult mode_NE q v) (Bmult mode_NE g w))) in *.
    replace (z - m) with ((z - (p1 + p2)) + (p1 + p2 - m)) by ring. eapply Rle_trans; [apply Rabs_triang|].
    assert (S6 : u * Rabs (p1 + p2) <= u * (2 * B + 1)) by (apply Rmult_le_compat_l; lra). lra.
  Qed.

  (** ** blend_fractions *)
  Lemma fractions_ends B dbg (f x y : arg FN) : 0 <= B <= bpow radix2 (emax - 3) -> finite_arg f -> finite_arg x -> finite_arg y -> 0 <= B2R (alower f) -> B2R (aupper f) <= 1 ->
    bounded_by B x -> bounded_by B y -> exists Z, iblend_fractions dbg f x y = Ret Z /\ finite_arg (Iv Z)
    /\ (forall p r s, within f p -> within x r -> within y s -> B2R (lo Z) - u * (6 * B + 3) <= mixr p r s <= B2R (hi Z) + u * (6 * B + 3))
    /\ (exists q, (q = B2R (alower f) \/ q = B2R (aupper f)) /\ exists r s, within x r /\ within y s /\ Rabs (mixr q r s - B2R (lo Z)) <= u * (6 * B + 3))
    /\ (exists q, (q = B2R (alower f) \/ q = B2R (aupper f)) /\ exists r s, within x r /\ within y s /\ Rabs (mixr q r s - B2R (hi Z)) <= u * (6 * B + 3)).
  Proof.
    intros HB Ff Fx Fy H0 H1 Bx By. unfold iblend_fractions. pose proof (denotes_ord D) as HO.
    rewrite (aproper_assigned HO f), (aproper_assigned HO x), (aproper_assigned HO y) by (apply (finite_proper prec emax Hp He); assumption). cbn [andb].
    replace (expects_debug dbg true) with (Ret tt) by (now destruct dbg). cbn [bind].
    rewrite (fraction_check D dbg f); [|apply (finite_proper prec emax Hp He); assumption|apply (le_B2R prec emax Hp He n_zero); [reflexivity|apply Ff|exact H0]|].
    2:{ destruct (one_real prec emax Hp He) as [F1 E1]. apply (le_B2R prec emax Hp He); [apply Ff|exact F1|]. setoid_rewrite E1. exact H1. }
    cbn [bind]. destruct Ff as (Ff1 & Ff2 & Of), Fx as (Fx1 & Fx2 & Ox), Fy as (Fy1 & Fy2 & Oy), Bx as [Bx1 Bx2], By as [By1 By2].
    assert (EL : @o_le FN (alower y) (alower x) = Rle_bool (B2R (alower y)) (B2R (alower x))) by (cbn; now rewrite Bleb_correct).
    assert (EU : @o_le FN (aupper y) (aupper x) = Rle_bool (B2R (aupper y)) (B2R (aupper x))) by (cbn; now rewrite Bleb_correct).
    rewrite EL, EU. set (ql := if Rle_bool (B2R (alower y)) (B2R (alower x)) then alower f else aupper f). set (qh := if Rle_bool (B2R (aupper y)) (B2R (aupper x)) then aupper f else alower f).
    cbn [n_add n_sub n_mul FN bind]. 
    destruct (mix_near B ql (alower x) (alower y) HB) as [G1 N1]; [unfold ql; destruct_le; assumption|unfold ql; destruct_le; lra|assumption..|].
    destruct (mix_near B qh (aupper x) (aupper y) HB) as [G2 N2]; [unfold qh; destruct_le; assumption|unfold qh; destruct_le; lra|assumption..|].
    change (exists Z, @from_unordered_bounds FN (mixf ql (alower x) (alower y)) (mixf qh (aupper x) (aupper y)) = Ret Z /\ finite_arg (Iv Z)
    /\ (forall p r s, within f p -> within x r -> within y s -> B2R (lo Z) - u * (6 * B + 3) <= mixr p r s <= B2R (hi Z) + u * (6 * B + 3))
    /\ (exists q, (q = B2R (alower f) \/ q = B2R (aupper f)) /\ exists r s, within x r /\ within y s /\ Rabs (mixr q r s - B2R (lo Z)) <= u * (6 * B + 3))
    /\ (exists q, (q = B2R (alower f) \/ q = B2R (aupper f)) /\ exists r s, within x r /\ within y s /\ Rabs (mixr q r s - B2R (hi Z)) <= u * (6 * B + 3))).
    rewrite (fub_real prec emax Hp He) by assumption. set (zl := mixf ql _ _) in *. set (zh := mixf qh _ _) in *.
    destruct (omin_real prec emax Hp He zl zh G1 G2) as [A1 A2], (omax_real prec emax Hp He zl zh G1 G2) as [B1 B2].
    assert (ML : forall p r s, within f p -> within x r -> within y s -> mixr (B2R ql) (B2R (alower x)) (B2R (alower y)) <= mixr p r s).
    { intros p r s Wp Wr Ws. replace (B2R ql) with (if Rle_bool (B2R (alower y)) (B2R (alower x)) then B2R (alower f) else B2R (aupper f)) by (unfold ql; destruct_le; reflexivity).
      apply mixr_low; unfold within in *; lra. }
    assert (MH : forall p r s, within f p -> within x r -> within y s -> mixr p r s <= mixr (B2R qh) (B2R (aupper x)) (B2R (aupper y))).
    { intros p r s Wp Wr Ws. replace (B2R qh) with (if Rle_bool (B2R (aupper y)) (B2R (aupper x)) then B2R (aupper f) else B2R (alower f)) by (unfold qh; destruct_le; reflexivity).
      apply mixr_high; unfold within in *; lra. }
    assert (LH : mixr (B2R ql) (B2R (alower x)) (B2R (alower y)) <= mixr (B2R qh) (B2R (aupper x)) (B2R (aupper y))).
    { apply ML; unfold within; [unfold qh; destruct_le|..]; lra. }
    apply Rabs_le_inv in N1, N2.
    eexists. split; [reflexivity|]. split; [split; [exact A1|split; [exact B1|]]; cbn [alower aupper lo hi]; setoid_rewrite A2; setoid_rewrite B2; unfold Rmin, Rmax; repeat destruct Rle_dec; lra|].
    cbn [lo hi]. setoid_rewrite A2. setoid_rewrite B2. split; [|split].
    - intros p r s Wp Wr Ws. specialize (ML p r s Wp Wr Ws). specialize (MH p r s Wp Wr Ws). unfold Rmin, Rmax; repeat destruct Rle_dec; lra.
    - exists (B2R ql). split; [unfold ql; destruct_le; auto|]. exists (B2R (alower x)), (B2R (alower y)). split; [unfold within; lra|]. split; [unfold within; lra|].
      apply Rabs_le. unfold Rmin; destruct Rle_dec; lra.
    - exists (B2R qh). split; [unfold qh; destruct_le; auto|]. exists (B2R (aupper x)), (B2R (aupper y)). split; [unfold within; lra|]. split; [unfold within; lra|].
      apply Rabs_le. unfold Rmax; destruct Rle_dec; lra.
  Qed.

  (** ** 1 / (1 + c / a) *)
  Definition shf (a c : F) : F := Bdiv mode_NE (@n_one FN : F) (Bplus mode_NE (@n_one FN : F) (Bdiv mode_NE c a)).
  Lemma inv_close p q e : 1 <= p -> 1 <= q -> Rabs (p - q) <= e * p -> 0 <= e -> Rabs (1 / p - 1 / q) <= e.
  Proof.
    intros Hp1 Hq1 H E. replace (1 / p - 1 / q) with (- (p - q) * (/ (p * q))) by (field; lra). rewrite Rabs_mult, Rabs_Ropp.
    assert (P : 0 < p * q) by (apply Rmult_lt_0_compat; lra). rewrite (Rabs_pos_eq (/ (p * q))) by (left; now apply Rinv_0_lt_compat).
    apply (Rmult_le_reg_r (p * q)); [exact P|]. rewrite Rmult_assoc, Rinv_l, Rmult_1_r by lra. eapply Rle_trans; [exact H|].
    replace (e * (p * q)) with (e * p * q) by ring. pose proof (Rmult_le_compat_l (e * p) 1 q ltac:(apply Rmult_le_pos; lra) Hq1). lra.
  Qed.
  Lemma over_top r : 0 <= r -> bpow radix2 emax <= Rabs (rnd r) -> bpow radix2 (emax - 1) < r.
  Proof.
    intros Hr H. apply Rnot_le_lt. intros K. rewrite <- (Rabs_pos_eq r) in K by lra. pose proof (rnd_le_bpow prec emax Hp He r (emax - 1) (or_introl eq_refl) K) as K1.
    pose proof (bpow_lt radix2 (emax - 1) emax ltac:(lia)). lra.
  Qed.
  Lemma rd_nonneg r : 0 <= r -> (rd r = XFin (rnd r)) \/ (rd r = XPinf /\ bpow radix2 (emax - 1) < r).
  Proof.
    intros Hr. unfold FloatProofs.rd. destruct (Rlt_bool_spec (Rabs (rnd r)) (bpow radix2 emax)) as [K|K]; [auto|right]. rewrite Rlt_bool_false by lra. split; [reflexivity|now apply over_top].
  Qed.
  Lemma small_inv r : bpow radix2 (emax - 1) <= 2 * r -> 0 <= 1 / r <= 2 * u.
  Proof.
    intros H. pose proof (bpow_gt_0 radix2 (emax - 1)) as T. assert (R0 : 0 < r) by lra. split; [apply Rmult_le_pos; [lra|left; now apply Rinv_0_lt_compat]|].
    apply (Rmult_le_reg_r r); [exact R0|]. replace (1 / r * r) with 1 by (field; lra). apply Rle_trans with (u * bpow radix2 (emax - 1)).
    - rewrite <- bpow_plus. change 1 with (bpow radix2 0). apply bpow_le. pose proof He as K. unfold Prec_lt_emax in K. lia.
    - pose proof (Rmult_le_compat_l u _ _ (bpow_ge_0 radix2 (- prec)) H). lra.
  Qed.
  Lemma share_near (a c : F) : is_finite a = true -> is_finite c = true -> 0 <= B2R a -> 0 <= B2R c -> 0 < B2R a + B2R c ->
    is_finite (shf a c) = true /\ 0 <= B2R (shf a c) <= 1 /\ Rabs (B2R (shf a c) - B2R a / (B2R a + B2R c)) <= 5 * u.
  Proof.
    intros Fa Fc Ha Hc Hs. pose proof u_quarter as U. pose proof (f2x_finite prec emax a Fa) as Xa. pose proof (f2x_finite prec emax c Fc) as Xc.
    destruct (ratio D c a) as (q & Hq & Q1 & Q2 & Q3). { rewrite Xa. apply Rle_bool_true. lra. } { rewrite Xc. apply Rle_bool_true. lra. } { rewrite Xa. intros [K _]. discriminate. }
    { rewrite Xa, Xc. intros [K1 K2]. injection K1 as K1. injection K2 as K2. lra. }
    destruct (share D (float_mdenotes prec emax Hp He (nearest_libm prec emax Hp He)) q Q1) as (d & r & Hd & Hr & L0 & L1 & Q4 & Q5).
    injection Hq as <-. injection Hd as <-. injection Hr as <-. change (Bdiv mode_NE _ (Bplus mode_NE _ _)) with (shf a c) in *.
    assert (FR : exists e, f2x (shf a c) = XFin e /\ 0 <= e <= 1).
    { destruct (f2x (shf a c)) as [| |e|]; try discriminate. exists e. split; [reflexivity|]. cbn in L0, L1. destruct (Rle_bool_spec 0 e), (Rle_bool_spec e 1); try discriminate. lra. }
    destruct FR as (e & Ee & He1). pose proof (f2x_fin prec emax _ _ Ee) as [Fr Er]. split; [exact Fr|]. rewrite Er. split; [exact He1|].
    destruct (Req_dec (B2R a) 0) as [Z|Z].
    - rewrite Xa, Z in Q2. rewrite (Q4 (Q2 eq_refl)) in Ee. injection Ee as <-. rewrite Z. unfold Rdiv. rewrite Rmult_0_l, Rminus_0_r, Rabs_R0. lra.
    - rewrite Xa, Xc in Q3. specialize (Q3 ltac:(intros K; injection K; exact Z)). cbn in Q3. rewrite Req_bool_false in Q3 by exact Z. cbn in Q3.
      set (t := B2R c / B2R a) in *. assert (T0 : 0 <= t) by (apply Rmult_le_pos; [lra|left; apply Rinv_0_lt_compat; lra]).
      replace (B2R a / (B2R a + B2R c)) with (1 / (1 + t)) by (unfold t; field; lra).
      destruct (rd_nonneg t T0) as [E1|[E1 K1]]; rewrite E1 in Q3.
      2:{ rewrite (Q4 (or_intror Q3)) in Ee. injection Ee as <-. pose proof (small_inv (1 + t) ltac:(lra)). rewrite Rminus_0_l, Rabs_Ropp, Rabs_pos_eq by lra. lra. }
      pose proof (rnd_error prec emax Hp He t) as N1. rewrite (Rabs_pos_eq t) in N1 by lra.
      assert (T1 : 0 <= rnd t) by (rewrite <- (round_0 radix2 fexp ZnearestE); apply round_le; auto with typeclass_instances).
      set (t' := rnd t) in *. destruct Q5 as (_ & Q6 & Q7). { rewrite Q3. apply Rle_bool_true. exact T1. }
      rewrite Q3 in Q6. cbn in Q6. destruct (rd_nonneg (1 + t') ltac:(lra)) as [E2|[E2 K2]]; rewrite E2 in Q6.
      2:{ rewrite Q6 in Q7. cbn in Q7. rewrite (d_rd_0 _ _ _ D) in Q7. rewrite Q7 in Ee. injection Ee as <-. apply Rabs_le_inv in N1.
          pose proof (Rmult_le_compat_r (t + 1) u (/ 4) ltac:(lra) ltac:(lra)). pose proof (small_inv (1 + t) ltac:(lra)). rewrite Rminus_0_l, Rabs_Ropp, Rabs_pos_eq by lra. lra. }
      assert (D1 : 1 <= rnd (1 + t')) by (rewrite <- rnd_one at 1; apply round_le; auto with typeclass_instances; lra).
      pose proof (rnd_error prec emax Hp He (1 + t')) as N2. rewrite (Rabs_pos_eq (1 + t')) in N2 by lra. set (d := rnd (1 + t')) in *.
      rewrite Q6 in Q7. cbn in Q7. rewrite Req_bool_false in Q7 by lra. cbn in Q7.
      assert (I1 : 0 <= 1 / d <= 1). { split; [apply Rmult_le_pos; [lra|left; apply Rinv_0_lt_compat; lra]|]. apply (Rmult_le_reg_r d); [lra|]. replace (1 / d * d) with 1 by (field; lra). lra. }
      destruct (rd_nonneg (1 / d) ltac:(lra)) as [E3|[E3 K3]]; [|exfalso; pose proof top_three; pose proof low_three; lra].
      rewrite E3, Ee in Q7. injection Q7 as ->. pose proof (rnd_unit_error (1 / d) I1) as N3.
      pose proof (inv_close (1 + t) (1 + t') u ltac:(lra) ltac:(lra)) as C1. replace (1 + t - (1 + t')) with (- (t' - t)) in C1 by ring. rewrite Rabs_Ropp in C1. specialize (C1 ltac:(lra) ltac:(lra)).
      pose proof (inv_close (1 + t') d (2 * u) ltac:(lra) ltac:(lra)) as C2. rewrite Rabs_minus_sym in C2. specialize (C2 ltac:(nra) ltac:(lra)).
      replace (rnd (1 / d) - 1 / (1 + t)) with ((rnd (1 / d) - 1 / d) + - ((1 / (1 + t) - 1 / (1 + t')) + (1 / (1 + t') - 1 / d))) by ring.
      eapply Rle_trans; [apply Rabs_triang|]. rewrite Rabs_Ropp. pose proof (Rabs_triang (1 / (1 + t) - 1 / (1 + t')) (1 / (1 + t') - 1 / d)). lra.
  Qed.

  Lemma fractions_near B dbg (f x y : arg FN) : 0 <= B <= bpow radix2 (emax - 3) -> finite_arg f -> finite_arg x -> finite_arg y -> 0 <= B2R (alower f) -> B2R (aupper f) <= 1 ->
    bounded_by B x -> bounded_by B y -> near_range3 (u * (6 * B + 3)) (fun p r s => p * r + (1 - p) * s) (iblend_fractions dbg f x y) f x y.
  Proof.
    intros HB Ff Fx Fy H0 H1 Bx By. destruct (fractions_ends B dbg f x y HB Ff Fx Fy H0 H1 Bx By) as (Z & E & FZ & K1 & (q & Hq & r & s & K2) & (q' & Hq' & r' & s' & K3)).
    exists Z. split; [exact E|]. split; [exact FZ|]. split; [exact K1|]. destruct Ff as (_ & _ & Of). split; [exists q, r, s|exists q', r', s']; (split; [unfold within; destruct Hq, Hq'; subst; lra|assumption]).
  Qed.

  (** ** blend_linear *)
  Lemma sum_positive (v w : F) : is_finite v = true -> is_finite w = true -> 0 <= B2R v -> 0 <= B2R w -> 0 < B2R v + B2R w -> @o_lt FN n_zero (Bplus mode_NE v w) = true.
  Proof.
    intros Fv Fw Hv Hw H. rewrite (d_lt _ _ _ D). pose proof (plus_x prec emax Hp He v w) as E. rewrite (f2x_finite _ _ _ Fv), (f2x_finite _ _ _ Fw) in E. cbn in E.
    change (xlt (f2x (B754_zero false)) (f2x (Bplus mode_NE v w)) = true). setoid_rewrite E. destruct (rd_nonneg (B2R v + B2R w) ltac:(lra)) as [E1|[E1 _]]; rewrite E1; [|reflexivity].
    assert (P : forall z : F, B2R z <= B2R v + B2R w -> B2R z <= rnd (B2R v + B2R w)).
    { intros z Hz. rewrite <- (round_generic radix2 fexp ZnearestE (B2R z)) at 1 by apply generic_format_B2R. apply round_le; auto with typeclass_instances. }
    pose proof (P v ltac:(lra)). pose proof (P w ltac:(lra)). unfold xlt. cbn. rewrite Rle_bool_true by lra. rewrite Rle_bool_false by lra. reflexivity.
  Qed.
  Lemma le_zero (v : FN) : is_finite (v : F) = true -> 0 <= B2R (v : F) -> nonneg v.
  Proof. intros Fv Hv. apply (le_B2R prec emax Hp He n_zero); [reflexivity|exact Fv|exact Hv]. Qed.
  Lemma linear_near B dbg (a b x y : arg FN) : 0 <= B <= bpow radix2 (emax - 3) -> finite_arg a -> finite_arg b -> finite_arg x -> finite_arg y ->
    0 <= B2R (alower a) -> 0 <= B2R (alower b) -> 0 < B2R (alower a) + B2R (alower b) ->
    bounded_by B x -> bounded_by B y -> near_range4 (u * (16 * B + 3)) (fun p q r s => (p * r + q * s) / (p + q)) (iblend_linear dbg a b x y) a b x y.
  Proof.
    intros HB Fa Fb Fx Fy Ha Hb Hs Bx By. pose proof (denotes_ord D) as HO. pose proof u_quarter as U.
    pose proof (finite_proper prec emax Hp He a Fa) as Pa. pose proof (finite_proper prec emax Hp He b Fb) as Pb. pose proof (finite_proper prec emax Hp He x Fx) as Px. pose proof (finite_proper prec emax Hp He y Fy) as Py.
    assert (Na : nonneg (alower a)) by (apply le_zero; [apply Fa|exact Ha]). assert (Nb : nonneg (alower b)) by (apply le_zero; [apply Fb|exact Hb]).
    pose proof (sum_positive (alower a) (alower b) (proj1 Fa) (proj1 Fb) Ha Hb Hs) as Sp.
    destruct (blend_linear_always D (float_mdenotes prec emax Hp He (nearest_libm prec emax Hp He)) dbg a b x y _ Pa Pb Px Py Na Nb eq_refl Sp) as (Z0 & E0).
    assert (EQ : iblend_linear dbg a b x y = (F <- @mk FN (shf (alower a) (aupper b)) (shf (aupper a) (alower b)) ;; iblend_fractions dbg (Iv F) x y)).
    { unfold iblend_linear. rewrite (aproper_assigned HO a Pa), (aproper_assigned HO b Pb), (aproper_assigned HO x Px), (aproper_assigned HO y Py). cbn [andb].
      replace (expects_debug dbg true) with (Ret tt) by (now destruct dbg). cbn [bind]. rewrite !(nonneg_check D) by assumption. rewrite (sum_check D dbg a b _ Pa Pb Na Nb eq_refl Sp). reflexivity. }
    rewrite EQ in *. destruct Fa as (Fa1 & Fa2 & Oa), Fb as (Fb1 & Fb2 & Ob).
    destruct (share_near (alower a) (aupper b) Fa1 Fb2 Ha ltac:(lra) ltac:(lra)) as (G1 & R1 & N1). destruct (share_near (aupper a) (alower b) Fa2 Fb1 ltac:(lra) Hb ltac:(lra)) as (G2 & R2 & N2).
    set (ql := shf (alower a) (aupper b)) in *. set (qh := shf (aupper a) (alower b)) in *.
    assert (O : B2R ql <= B2R qh).
    { unfold mk in E0. destruct (le_real prec emax Hp He ql qh G1 G2) as [[_ K]|[_ K]]; [exact K|exfalso]. revert E0. cbn. rewrite (Bltb_correct prec emax qh ql G2 G1), Rlt_bool_true by exact K. discriminate. }
    rewrite (mk_real prec emax Hp He ql qh G1 G2 O). cbn [bind].
    destruct (fractions_ends B dbg (Iv (Ivl ql qh : ivl FN)) x y HB (conj G1 (conj G2 O)) Fx Fy (proj1 R1) (proj2 R2) Bx By) as (Z & E & FZ & K1 & (q & Hq & r & s & Wr & Ws & K2) & (q' & Hq' & r' & s' & Wr' & Ws' & K3)).
    exists Z. split; [exact E|]. split; [exact FZ|]. cbn [alower aupper lo hi] in *.
    assert (BX : forall z t, bounded_by B z -> within z t -> Rabs t <= B) by (intros z t [Z1 Z2] [Z3 Z4]; apply Rabs_le_inv in Z1, Z2; apply Rabs_le; lra).
    assert (AT : forall q r s w, (q = B2R ql \/ q = B2R qh) -> within x r -> within y s -> Rabs (mixr q r s - w) <= u * (6 * B + 3) ->
      exists p q r s, within a p /\ within b q /\ within x r /\ within y s /\ Rabs ((p * r + q * s) / (p + q) - w) <= u * (16 * B + 3)).
    { clear q Hq r s Wr Ws K2 q' Hq' r' s' Wr' Ws' K3. intros q r s w Hq Wr Ws K.
      assert (C : exists p o, within a p /\ within b o /\ 0 < p + o /\ Rabs (p / (p + o) - q) <= 5 * u).
      { destruct Hq as [-> | ->]; [exists (B2R (alower a)), (B2R (aupper b))|exists (B2R (aupper a)), (B2R (alower b))]; unfold within; rewrite Rabs_minus_sym; repeat split; lra. }
      destruct C as (p & o & Wp & Wo & Sp' & Cp). exists p, o, r, s. repeat (split; [assumption|]). change ((p * r + o * s) / (p + o)) with (mixl p o r s). rewrite mixl_mixr by exact Sp'.
      pose proof (mixr_move _ _ r s B _ Cp (BX x r Bx Wr) (BX y s By Ws)) as M1. replace (mixr (p / (p + o)) r s - w) with ((mixr (p / (p + o)) r s - mixr q r s) + (mixr q r s - w)) by ring.
      eapply Rle_trans; [apply Rabs_triang|]. lra. }
    split; [|split; [exact (AT q r s _ Hq Wr Ws K2)|exact (AT q' r' s' _ Hq' Wr' Ws' K3)]].
    intros p o r0 s0 Wp Wo W1 W2. change ((p * r0 + o * s0) / (p + o)) with (mixl p o r0 s0). unfold within in Wp, Wo. rewrite mixl_mixr by lra. set (f := p / (p + o)).
    assert (F1 : B2R (alower a) / (B2R (alower a) + B2R (aupper b)) <= f) by (apply fraction_mono; lra). assert (F2 : f <= B2R (aupper a) / (B2R (aupper a) + B2R (alower b))) by (apply fraction_mono; lra).
    assert (C : exists g, B2R ql <= g <= B2R qh /\ Rabs (f - g) <= 5 * u).
    { apply Rabs_le_inv in N1, N2. destruct (Rlt_or_le f (B2R ql)) as [C1|C1]; [exists (B2R ql)|destruct (Rlt_or_le (B2R qh) f) as [C2|C2]; [exists (B2R qh)|exists f]]; (split; [lra|apply Rabs_le; lra]). }
    destruct C as (g & Wg & Cg). pose proof (mixr_move _ _ r0 s0 B _ Cg (BX x r0 Bx W1) (BX y s0 By W2)) as M1. specialize (K1 g r0 s0 Wg W1 W2). apply Rabs_le_inv in M1. lra.
  Qed.

  (** ** fractional_weights *)
  (** v / (v + w) *)
  Definition wtf (v w : F) : F := Bdiv mode_NE v (Bplus mode_NE v w).
  Lemma weight_div (v w s : F) : is_finite v = true -> is_finite s = true -> 0 <= B2R v <= B2R s -> 0 < B2R s -> 0 < B2R v + B2R w -> 0 <= B2R w ->
    Rabs (B2R s - (B2R v + B2R w)) <= u * (B2R v + B2R w) ->
    is_finite (Bdiv mode_NE v s) = true /\ 0 <= B2R (Bdiv mode_NE v s) <= 1 /\ Rabs (B2R (Bdiv mode_NE v s) - B2R v / (B2R v + B2R w)) <= 3 * u.
  Proof.
    intros Fv Fs Hv Hs Hvw Hw Es. pose proof u_quarter as U. set (x := B2R v) in *. set (y := B2R w) in *. set (t := B2R s) in *.
    assert (Q : 0 <= x / t <= 1). { split; [apply Rmult_le_pos; [lra|left; now apply Rinv_0_lt_compat]|]. apply (Rmult_le_reg_r t); [exact Hs|]. replace (x / t * t) with x by (field; lra). lra. }
    destruct (div_real prec emax Hp He v s Fv Fs) as [G R]; [fold t; lra| |]. { fold x t. rewrite Rabs_pos_eq by lra. pose proof top_three. pose proof low_three. lra. }
    split; [exact G|]. rewrite R. fold x t. split; [now apply rnd_unit|]. pose proof (rnd_unit_error (x / t) Q) as N1.
    assert (N2 : Rabs (x / t - x / (x + y)) <= u).
    { replace (x / t - x / (x + y)) with (x / t * (- (t - (x + y)) * / (x + y))) by (field; lra). rewrite !Rabs_mult, Rabs_Ropp, (Rabs_pos_eq (x / t)), (Rabs_pos_eq (/ (x + y))) by (lra || (left; apply Rinv_0_lt_compat; lra)).
      assert (K : Rabs (t - (x + y)) * / (x + y) <= u). { apply (Rmult_le_reg_r (x + y)); [lra|]. rewrite Rmult_assoc, Rinv_l, Rmult_1_r by lra. exact Es. }
      pose proof (Rmult_le_compat (x / t) 1 (Rabs (t - (x + y)) * / (x + y)) u ltac:(lra) ltac:(apply Rmult_le_pos; [apply Rabs_pos|left; apply Rinv_0_lt_compat; lra]) ltac:(lra) K). lra. }
    replace (rnd (x / t) - x / (x + y)) with ((rnd (x / t) - x / t) + (x / t - x / (x + y))) by ring. eapply Rle_trans; [apply Rabs_triang|]. lra.
  Qed.
  Lemma sum_real (v w : F) : is_finite v = true -> is_finite w = true -> 0 <= B2R v -> 0 <= B2R w -> 0 < B2R v + B2R w -> B2R v <= bpow radix2 (emax - 2) -> B2R w <= bpow radix2 (emax - 2) ->
    is_finite (Bplus mode_NE v w) = true /\ B2R v <= B2R (Bplus mode_NE v w) /\ B2R w <= B2R (Bplus mode_NE v w) /\ 0 < B2R (Bplus mode_NE v w)
    /\ Rabs (B2R (Bplus mode_NE v w) - (B2R v + B2R w)) <= u * (B2R v + B2R w).
  Proof.
    intros Fv Fw Hv Hw H Bv Bw. destruct (add_real prec emax Hp He v w Fv Fw) as (G & R & S).
    { rewrite Rabs_pos_eq by lra. replace (emax - 1)%Z with (emax - 2 + 1)%Z by lia. rewrite bpow_plus. change (bpow radix2 1) with 2. lra. }
    split; [exact G|]. rewrite (Rabs_pos_eq (B2R v + B2R w)) in S by lra.
    assert (P : forall z : F, B2R z <= B2R v + B2R w -> B2R z <= B2R (Bplus mode_NE v w)).
    { intros z Hz. rewrite R. rewrite <- (round_generic radix2 fexp ZnearestE (B2R z)) at 1 by apply generic_format_B2R. apply round_le; auto with typeclass_instances. }
    pose proof (P v ltac:(lra)). pose proof (P w ltac:(lra)). repeat (split; [lra|]). exact S.
  Qed.
  Lemma plus_comm (v w : F) : Bplus mode_NE v w = Bplus mode_NE w v.
  Proof. pose proof (d_add_comm _ _ _ D v w) as E. now injection E. Qed.
  Lemma fraction_one a b : 0 < a + b -> b / (a + b) = 1 - a / (a + b).
  Proof. intros H. field. lra. Qed.
  Lemma mk_fails (p q : F) : is_finite p = true -> is_finite q = true -> (@mk FN p q = Ret (Ivl p q) /\ B2R p <= B2R q) \/ (@mk FN p q = FailFast /\ B2R q < B2R p).
  Proof.
    intros Fp Fq. destruct (Rle_or_lt (B2R p) (B2R q)) as [K|K]; [left; split; [now apply mk_real|exact K]|right; split; [|exact K]]. unfold mk. cbn. rewrite Bltb_correct by assumption. now rewrite Rlt_bool_true by exact K.
  Qed.
  Section Weights.
    Variables (dbg : bool) (a b : arg FN).
    Hypothesis Fa : finite_arg a.
    Hypothesis Fb : finite_arg b.
    Hypothesis Ha : 0 <= B2R (alower a).
    Hypothesis Hb : 0 <= B2R (alower b).
    Hypothesis Hs : 0 < B2R (alower a) + B2R (alower b).
    Hypothesis Ba : B2R (aupper a) <= bpow radix2 (emax - 2).
    Hypothesis Bb : B2R (aupper b) <= bpow radix2 (emax - 2).
    Notation al := (B2R (alower a)).
    Notation au := (B2R (aupper a)).
    Notation bl := (B2R (alower b)).
    Notation bu := (B2R (aupper b)).
    Lemma weights_run : exists p q p' q' : F, is_finite p = true /\ is_finite q = true /\ is_finite p' = true /\ is_finite q' = true
      /\ Rabs (B2R p - al / (al + bu)) <= 3 * u /\ Rabs (B2R q - au / (au + bl)) <= 3 * u /\ Rabs (B2R p' - bl / (au + bl)) <= 3 * u /\ Rabs (B2R q' - bu / (al + bu)) <= 3 * u
      /\ iweights dbg a b = (A <- @mk FN p q ;; B <- @mk FN p' q' ;; Ret (A, B)).
    Proof.
      pose proof (denotes_ord D) as HO. pose proof (finite_proper prec emax Hp He a Fa) as Pa. pose proof (finite_proper prec emax Hp He b Fb) as Pb.
      assert (Na : nonneg (alower a)) by (apply le_zero; [apply Fa|exact Ha]). assert (Nb : nonneg (alower b)) by (apply le_zero; [apply Fb|exact Hb]).
      pose proof (sum_positive (alower a) (alower b) (proj1 Fa) (proj1 Fb) Ha Hb Hs) as Sp.
      pose proof Fa as (Fa1 & Fa2 & Oa). pose proof Fb as (Fb1 & Fb2 & Ob).
      destruct (sum_real (alower a) (aupper b) Fa1 Fb2 Ha ltac:(lra) ltac:(lra) ltac:(lra) ltac:(lra)) as (G1 & L1 & L2 & L3 & E1).
      destruct (sum_real (aupper a) (alower b) Fa2 Fb1 ltac:(lra) ltac:(lra) ltac:(lra) ltac:(lra) ltac:(lra)) as (G2 & M1 & M2 & M3 & E2).
      destruct (weight_div (alower a) (aupper b) _ Fa1 G1 ltac:(lra) L3 ltac:(lra) ltac:(lra) E1) as (P1 & _ & N1).
      destruct (weight_div (aupper a) (alower b) _ Fa2 G2 ltac:(lra) M3 ltac:(lra) ltac:(lra) E2) as (P2' & _ & N2).
      rewrite (Rplus_comm al bu) in E1. rewrite (Rplus_comm au bl) in E2.
      destruct (weight_div (alower b) (aupper a) _ Fb1 G2 ltac:(lra) M3 ltac:(lra) ltac:(lra) E2) as (P3 & _ & N3).
      destruct (weight_div (aupper b) (alower a) _ Fb2 G1 ltac:(lra) L3 ltac:(lra) ltac:(lra) E1) as (P4 & _ & N4).
      do 4 eexists. split; [exact P1|]. split; [exact P2'|]. split; [exact P3|]. split; [exact P4|]. split; [exact N1|]. split; [exact N2|]. rewrite (Rplus_comm au bl), (Rplus_comm al bu). split; [exact N3|]. split; [exact N4|].
      unfold iweights. rewrite (aproper_assigned HO a Pa), (aproper_assigned HO b Pb). cbn [andb]. replace (expects_debug dbg true) with (Ret tt) by (now destruct dbg). cbn [bind].
      rewrite !(nonneg_check D) by assumption. rewrite (sum_check D dbg a b _ Pa Pb Na Nb eq_refl Sp). reflexivity.
    Qed.
    Lemma weights_near A B : iweights dbg a b = Ret (A, B) -> near_range2 (3 * u) (fun p q => p / (p + q)) (Ret A) a b /\ near_range2 (3 * u) (fun p q => q / (p + q)) (Ret B) a b.
    Proof.
      intros E. destruct weights_run as (p & q & p' & q' & F1 & F2 & F3 & F4 & N1 & N2 & N3 & N4 & EQ). rewrite EQ in E.
      destruct (mk_fails p q F1 F2) as [[E1 O1]|[E1 _]]; rewrite E1 in E; [|discriminate]. destruct (mk_fails p' q' F3 F4) as [[E2 O2]|[E2 _]]; cbn [bind] in E; rewrite E2 in E; [|discriminate]. cbn [bind] in E. injection E as <- <-.
      pose proof Fa as (Fa1 & Fa2 & Oa). pose proof Fb as (Fb1 & Fb2 & Ob). split; (eexists; split; [reflexivity|]); cbn [lo hi]; (split; [now split|]).
      - split; [|split].
        + intros r s Wr Ws. unfold within in Wr, Ws. pose proof (fraction_mono al bu r s ltac:(lra) ltac:(lra) ltac:(lra)). pose proof (fraction_mono r s au bl ltac:(lra) ltac:(lra) ltac:(lra)). apply Rabs_le_inv in N1, N2. lra.
        + exists al, bu. unfold within. rewrite Rabs_minus_sym. repeat split; lra.
        + exists au, bl. unfold within. rewrite Rabs_minus_sym. repeat split; lra.
      - split; [|split].
        + intros r s Wr Ws. unfold within in Wr, Ws. rewrite fraction_one by lra. rewrite fraction_one in N3, N4 by lra.
          pose proof (fraction_mono al bu r s ltac:(lra) ltac:(lra) ltac:(lra)). pose proof (fraction_mono r s au bl ltac:(lra) ltac:(lra) ltac:(lra)). apply Rabs_le_inv in N3, N4. lra.
        + exists au, bl. unfold within. rewrite Rabs_minus_sym. repeat split; lra.
        + exists al, bu. unfold within. rewrite Rabs_minus_sym. repeat split; lra.
    Qed.
    (** They fail only if the exact range is very narrow. *)
    Lemma weights_return : al / (al + bu) + 6 * u <= au / (au + bl) -> exists A B, iweights dbg a b = Ret (A, B).
    Proof.
      intros Gap. destruct weights_run as (p & q & p' & q' & F1 & F2 & F3 & F4 & N1 & N2 & N3 & N4 & EQ). rewrite EQ. pose proof Fa as (Fa1 & Fa2 & Oa). pose proof Fb as (Fb1 & Fb2 & Ob).
      rewrite fraction_one in N3, N4 by lra. apply Rabs_le_inv in N1, N2, N3, N4.
      rewrite (mk_real prec emax Hp He p q F1 F2) by lra. cbn [bind]. rewrite (mk_real prec emax Hp He p' q' F3 F4) by lra. cbn [bind]. eauto.
    Qed.
    Lemma weights_outcome : iweights dbg a b = FailFast \/ exists A B, iweights dbg a b = Ret (A, B).
    Proof.
      destruct weights_run as (p & q & p' & q' & F1 & F2 & F3 & F4 & _ & _ & _ & _ & EQ). rewrite EQ.
      destruct (mk_fails p q F1 F2) as [[-> _]|[-> _]]; cbn [bind]; [|auto]. destruct (mk_fails p' q' F3 F4) as [[-> _]|[-> _]]; cbn [bind]; [right; eauto|auto].
    Qed.
  End Weights.

  (** ** Numbers *)
  Section Scalar.
    Variables (dbg : bool) (v w x y : F) (B : R).
    Hypothesis Fv : is_finite v = true.
    Hypothesis Fw : is_finite w = true.
    Hypothesis Fx : is_finite x = true.
    Hypothesis Fy : is_finite y = true.
    Hypothesis Hv : 0 <= B2R v <= bpow radix2 (emax - 2).
    Hypothesis Hw : 0 <= B2R w <= bpow radix2 (emax - 2).
    Hypothesis Hs : 0 < B2R v + B2R w.
    Hypothesis Bx : Rabs (B2R x) <= B.
    Hypothesis By : Rabs (B2R y) <= B.
    Notation sv := (B2R v / (B2R v + B2R w)).
    Notation sw := (B2R w / (B2R v + B2R w)).
    Lemma sweights_near : exists p q : F, @sweights FN dbg v w = Ret (p, q) /\ is_finite p = true /\ is_finite q = true /\ 0 <= B2R p <= 1 /\ 0 <= B2R q <= 1
      /\ Rabs (B2R p - sv) <= 3 * u /\ Rabs (B2R q - sw) <= 3 * u.
    Proof.
      destruct (sum_real v w Fv Fw ltac:(lra) ltac:(lra) Hs ltac:(lra) ltac:(lra)) as (G & L1 & L2 & L3 & E). pose proof (sum_positive v w Fv Fw ltac:(lra) ltac:(lra) Hs) as Sp.
      destruct (weight_div v w _ Fv G ltac:(lra) L3 Hs ltac:(lra) E) as (P1 & U1 & N1). rewrite (Rplus_comm (B2R v)) in E. destruct (weight_div w v _ Fw G ltac:(lra) L3 ltac:(lra) ltac:(lra) E) as (P2' & U2 & N2).
      rewrite (Rplus_comm (B2R w)) in N2. do 2 eexists. split; [|split; [exact P1|split; [exact P2'|split; [exact U1|split; [exact U2|split; [exact N1|exact N2]]]]]].
      unfold sweights, check. cbn [n_add n_div FN bind]. assert (Zv : @o_le FN n_zero v = true) by (apply le_zero; [exact Fv|lra]). assert (Zw : @o_le FN n_zero w = true) by (apply le_zero; [exact Fw|lra]).
      rewrite Zv, Zw. cbn [bind]. destruct dbg; [|reflexivity]. cbn [bind expects]. setoid_rewrite Sp. reflexivity.
    Qed.
    Hypothesis HB : B <= bpow radix2 (emax - 3).
    Lemma sfractions_near (f : F) : is_finite f = true -> 0 <= B2R f <= 1 ->
      exists z : F, @sblend_fractions FN dbg f x y = Ret z /\ is_finite z = true /\ Rabs (B2R z - (B2R f * B2R x + (1 - B2R f) * B2R y)) <= u * (6 * B + 3).
    Proof.
      intros Ff Hf. assert (B0 : 0 <= B <= bpow radix2 (emax - 3)) by (pose proof (Rabs_pos (B2R x)); lra). destruct (mix_near B f x y B0 Ff Hf Fx Bx Fy By) as [G N]. exists (mixf f x y). split; [|split; [exact G|exact N]].
      unfold sblend_fractions. destruct (one_real prec emax Hp He) as [F1 E1]. assert (Z0 : @o_le FN n_zero f = true) by (apply le_zero; [exact Ff|lra]).
      assert (Z1 : @o_le FN f n_one = true) by (apply (le_B2R prec emax Hp He); [exact Ff|exact F1|]; setoid_rewrite E1; lra). rewrite Z0, Z1. destruct dbg; reflexivity.
    Qed.
    Lemma term_near (p t : F) c : is_finite p = true -> 0 <= B2R p <= 1 -> is_finite t = true -> Rabs (B2R t) <= B -> Rabs (B2R p - c) <= 3 * u ->
      is_finite (Bmult mode_NE p t) = true /\ Rabs (B2R (Bmult mode_NE p t) - c * B2R t) <= u * (4 * B + 1).
    Proof.
      intros Fp Up Ft Bt Np. pose proof u_quarter as U. pose proof top_three as T3. pose proof low_three as L3. pose proof (Rabs_pos (B2R t)) as T0.
      assert (A1 : Rabs (B2R p * B2R t) <= B). { rewrite Rabs_mult, (Rabs_pos_eq (B2R p)) by lra. pose proof (Rmult_le_compat (B2R p) 1 (Rabs (B2R t)) B ltac:(lra) ltac:(lra) ltac:(lra) Bt). lra. }
      destruct (mult_real prec emax Hp He p t Fp Ft ltac:(lra)) as [G R]. split; [exact G|]. rewrite R. pose proof (rnd_error prec emax Hp He (B2R p * B2R t)) as N1.
      pose proof (Rmult_le_compat_l u _ _ ltac:(lra) A1) as A2.
      assert (N2 : Rabs (B2R p * B2R t - c * B2R t) <= 3 * u * B). { replace (B2R p * B2R t - c * B2R t) with ((B2R p - c) * B2R t) by ring. rewrite Rabs_mult. apply Rmult_le_compat; auto using Rabs_pos. }
      replace (rnd (B2R p * B2R t) - c * B2R t) with ((rnd (B2R p * B2R t) - B2R p * B2R t) + (B2R p * B2R t - c * B2R t)) by ring. eapply Rle_trans; [apply Rabs_triang|]. lra.
    Qed.
    Lemma slinear_near : exists z : F, @sblend_linear FN dbg v w x y = Ret z /\ is_finite z = true
      /\ Rabs (B2R z - (B2R v * B2R x + B2R w * B2R y) / (B2R v + B2R w)) <= u * (11 * B + 3).
    Proof.
      pose proof u_quarter as U. pose proof top_three as T3. pose proof low_three as L3. assert (B0 : 0 <= B) by (pose proof (Rabs_pos (B2R x)); lra).
      destruct sweights_near as (p & q & E & Fp & Fq & Up & Uq & Np & Nq). unfold sblend_linear. rewrite E. cbn [bind n_mul n_add FN].
      destruct (term_near p x _ Fp Up Fx Bx Np) as [G1 N1]. destruct (term_near q y _ Fq Uq Fy By Nq) as [G2 N2]. rewrite fraction_one in N2 by exact Hs.
      pose proof (mixr_abs sv (B2R x) (B2R y) B (fraction_unit (B2R v) (B2R w) ltac:(lra) ltac:(lra) Hs) Bx By) as A0.
      change ((B2R v * B2R x + B2R w * B2R y) / (B2R v + B2R w)) with (mixl (B2R v) (B2R w) (B2R x) (B2R y)). rewrite mixl_mixr by exact Hs.
      set (p1 := Bmult mode_NE p x) in *. set (p2 := Bmult mode_NE q y) in *. set (m := mixr sv (B2R x) (B2R y)) in *.
      assert (N3 : Rabs (B2R p1 + B2R p2 - m) <= u * (8 * B + 2)).
      { unfold m, mixr. replace (B2R p1 + B2R p2 - (sv * B2R x + (1 - sv) * B2R y)) with ((B2R p1 - sv * B2R x) + (B2R p2 - (1 - sv) * B2R y)) by ring. eapply Rle_trans; [apply Rabs_triang|]. lra. }
      assert (UB : u * B <= / 4 * B) by (apply Rmult_le_compat_r; lra).
      assert (A5 : Rabs (B2R p1 + B2R p2) <= 3 * B + 1). { replace (B2R p1 + B2R p2) with ((B2R p1 + B2R p2 - m) + m) by ring. eapply Rle_trans; [apply Rabs_triang|]. lra. }
      destruct (add_real prec emax Hp He p1 p2 G1 G2 ltac:(lra)) as (G5 & _ & S5). eexists. split; [reflexivity|]. split; [exact G5|]. set (z := B2R (Bplus mode_NE p1 p2)) in *.
      replace (z - m) with ((z - (B2R p1 + B2R p2)) + (B2R p1 + B2R p2 - m)) by ring. eapply Rle_trans; [apply Rabs_triang|].
      pose proof (Rmult_le_compat_l u _ _ ltac:(lra) A5). lra.
    Qed.
    Variable L : libm F.
    Hypothesis QB : (4 * B + 2) * (4 * B + 2) <= bpow radix2 (emax - 2).
    Lemma rnd_mixed r : Rabs (rnd r - r) <= u * Rabs r + 2 * u * u.
    Proof.
      pose proof (bpow_gt_0 radix2 (- prec)) as U. pose proof (Rabs_pos r) as P. pose proof He as Hpe. unfold Prec_lt_emax in Hpe.
      assert (EM : bpow radix2 (3 - emax - prec) <= 4 * u * u).
      { change 4 with (bpow radix2 2). rewrite <- !bpow_plus. apply bpow_le. lia. }
      eapply Rle_trans; [apply error_le_half_ulp; auto with typeclass_instances|]. pose proof (Rmult_le_pos u (Rabs r) ltac:(lra) P) as UP. pose proof (Rmult_le_pos u u ltac:(lra) ltac:(lra)) as UU.
      destruct (Req_dec r 0) as [->|N0].
      - change (ulp radix2 fexp 0) with (ulp radix2 (FLT_exp (3 - emax - prec) prec) 0). rewrite ulp_FLT_0 by exact Hp. lra.
      - rewrite ulp_neq_0 by exact N0. unfold cexp. destruct (Z.le_gt_cases (mag radix2 r - prec) (SpecFloat.emin prec emax)) as [K|K].
        + unfold SpecFloat.fexp. rewrite Z.max_r by exact K. unfold SpecFloat.emin. lra.
        + unfold SpecFloat.fexp. rewrite Z.max_l by lia. replace (mag radix2 r - prec)%Z with ((mag radix2 r - 1) + (- prec) + 1)%Z by lia. rewrite !bpow_plus. change (bpow radix2 1) with 2.
          pose proof (bpow_mag_le radix2 r N0) as K1. pose proof (Rmult_le_compat_l u _ _ ltac:(lra) K1). lra.
    Qed.
    Lemma squadratic_near : exists z : F, sblend_quadratic (float_math prec emax Hp He L) dbg (v : FN) (w : FN) (x : FN) (y : FN) = Ret (z : FN) /\ is_finite z = true
      /\ Rabs (B2R z - sqrt ((sv * B2R x) ^ 2 + (sw * B2R y) ^ 2)) <= u * (20 * B + 10).
    Proof.
      pose proof u_quarter as U. pose proof top_three as T3. pose proof low_three as L3. assert (B0 : 0 <= B) by (pose proof (Rabs_pos (B2R x)); lra).
      assert (T2 : 2 * bpow radix2 (emax - 2) = bpow radix2 (emax - 1)). { replace (emax - 1)%Z with (emax - 2 + 1)%Z by lia. rewrite bpow_plus. change (bpow radix2 1) with 2. ring. }
      destruct sweights_near as (p & q & E & Fp & Fq & Up & Uq & Np & Nq). unfold sblend_quadratic, nsquare. rewrite E. cbn [bind n_mul n_add FN m_sqrt float_math].
      destruct (term_near p x _ Fp Up Fx Bx Np) as [G1 N1]. destruct (term_near q y _ Fq Uq Fy By Nq) as [G2 N2].
      replace ((sv * B2R x) ^ 2 + (sw * B2R y) ^ 2) with (sv * B2R x * (sv * B2R x) + sw * B2R y * (sw * B2R y)) by ring. change (sqrt (sv * B2R x * (sv * B2R x) + sw * B2R y * (sw * B2R y))) with (len (sv * B2R x) (sw * B2R y)).
      pose proof (fraction_unit (B2R v) (B2R w) ltac:(lra) ltac:(lra) Hs) as UV.
      assert (A0 : Rabs (sv * B2R x) + Rabs (sw * B2R y) <= B).
      { rewrite (fraction_one _ _ Hs), !Rabs_mult, (Rabs_pos_eq sv), (Rabs_pos_eq (1 - sv)) by lra. pose proof (Rmult_le_compat_l sv _ _ ltac:(lra) Bx). pose proof (Rmult_le_compat_l (1 - sv) _ _ ltac:(lra) By). lra. }
      set (p1 := Bmult mode_NE p x) in *. set (p2 := Bmult mode_NE q y) in *. set (c1 := sv * B2R x) in *. set (c2 := sw * B2R y) in *.
      assert (UB : u * B <= / 4 * B) by (apply Rmult_le_compat_r; lra).
      assert (A1 : Rabs (B2R p1) + Rabs (B2R p2) <= 3 * B + / 2).
      { pose proof (Rabs_triang (B2R p1 - c1) c1) as J1. pose proof (Rabs_triang (B2R p2 - c2) c2) as J2. replace (B2R p1 - c1 + c1) with (B2R p1) in J1 by ring. replace (B2R p2 - c2 + c2) with (B2R p2) in J2 by ring. lra. }
      pose proof (len_close (B2R p1) (B2R p2) c1 c2) as N3. pose proof (len_abs (B2R p1) (B2R p2)) as A2.
      pose proof (sq_nonneg (B2R p1) (B2R p2)) as X0. pose proof (Rle_0_sqr (B2R p1)) as X1. pose proof (Rle_0_sqr (B2R p2)) as X2. unfold Rsqr in X1, X2.
      assert (XB : B2R p1 * B2R p1 + B2R p2 * B2R p2 <= (3 * B + / 2) * (3 * B + / 2)).
      { unfold len in A2. rewrite <- (sqrt_sqrt _ X0). apply Rmult_le_compat; try apply sqrt_pos; lra. }
      assert (XT : 2 * ((3 * B + / 2) * (3 * B + / 2)) + 1 <= bpow radix2 (emax - 1)). { pose proof (Rmult_le_pos B B B0 B0). lra. }
      destruct (mult_real prec emax Hp He p1 p1 G1 G1) as [G3 R3]. { rewrite Rabs_pos_eq by lra. lra. }
      destruct (mult_real prec emax Hp He p2 p2 G2 G2) as [G4 R4]. { rewrite Rabs_pos_eq by lra. lra. }
      pose proof (rnd_mixed (B2R p1 * B2R p1)) as N4. pose proof (rnd_mixed (B2R p2 * B2R p2)) as N5. rewrite <- R3 in N4. rewrite <- R4 in N5. rewrite (Rabs_pos_eq _ X1) in N4. rewrite (Rabs_pos_eq _ X2) in N5.
      set (s1 := Bmult mode_NE p1 p1) in *. set (s2 := Bmult mode_NE p2 p2) in *. set (x1 := B2R p1 * B2R p1) in *. set (x2 := B2R p2 * B2R p2) in *.
      assert (Z1 : 0 <= B2R s1) by (rewrite R3, <- (round_0 radix2 fexp ZnearestE); apply round_le; auto with typeclass_instances).
      assert (Z2 : 0 <= B2R s2) by (rewrite R4, <- (round_0 radix2 fexp ZnearestE); apply round_le; auto with typeclass_instances).
      assert (UX : u * (x1 + x2) <= / 4 * (x1 + x2)) by (apply Rmult_le_compat_r; lra). assert (UX0 : 0 <= u * (x1 + x2)) by (apply Rmult_le_pos; lra).
      assert (UU : 0 <= u * u <= / 4 * u) by (split; [apply Rmult_le_pos; lra|apply Rmult_le_compat_r; lra]).
      apply Rabs_le_inv in N4, N5.
      destruct (add_real prec emax Hp He s1 s2 G3 G4) as (G5 & _ & S5). { rewrite Rabs_pos_eq by lra. lra. }
      rewrite (Rabs_pos_eq (B2R s1 + B2R s2)) in S5 by lra. set (s := Bplus mode_NE s1 s2) in *. apply Rabs_le_inv in S5.
      pose proof (Rmult_le_compat_l u _ _ ltac:(lra) (proj2 N4)) as J4. pose proof (Rmult_le_compat_l u _ _ ltac:(lra) (proj2 N5)) as J5.
      pose proof (Rmult_le_compat_l u _ _ ltac:(lra) UX) as J6. pose proof (Rmult_le_compat_l u _ _ ltac:(lra) (proj2 UU)) as J7.
      assert (S0 : 0 <= B2R s).
      { pose proof (Rmult_le_compat_r (B2R s1 + B2R s2) u 1 ltac:(lra) ltac:(lra)). lra. }
      assert (SX : Rabs (B2R s - (x1 + x2)) <= (9 / 4 * u) * (x1 + x2) + (3 * u) * (3 * u)). { apply Rabs_le. lra. }
      pose proof (sqrt_close (B2R s) (x1 + x2) (9 / 4 * u) (3 * u) X0 S0 ltac:(lra) ltac:(lra) SX) as N6. change (sqrt (x1 + x2)) with (len (B2R p1) (B2R p2)) in N6.
      pose proof (sqrt_pos (B2R s)) as Q0. set (l := len (B2R p1) (B2R p2)) in *. pose proof (sqrt_pos (x1 + x2)) as L0. change (sqrt (x1 + x2)) with l in L0.
      assert (UL : u * l <= u * (3 * B + / 2)) by (apply Rmult_le_compat_l; lra).
      assert (QS : sqrt (B2R s) <= 5 * B + 2). { apply Rabs_le_inv in N6. lra. }
      assert (QT : 5 * B + 2 <= bpow radix2 (emax - 1)). { pose proof (Rmult_le_pos B B B0 B0). lra. }
      assert (LS : Bleb (B754_zero false) s = true). { apply (le_B2R prec emax Hp He n_zero s eq_refl G5). exact S0. }
      pose proof (sqrt_x prec emax Hp He s LS) as ES. rewrite (f2x_finite prec emax s G5) in ES. cbn in ES.
      rewrite (rd_small prec emax Hp He (sqrt (B2R s)) (emax - 1) (or_introl eq_refl)) in ES by (rewrite Rabs_pos_eq by lra; lra). apply f2x_fin in ES as [G6 R6].
      eexists. split; [reflexivity|]. split; [exact G6|]. rewrite R6. pose proof (rnd_error prec emax Hp He (sqrt (B2R s))) as N7. rewrite (Rabs_pos_eq _ Q0) in N7.
      pose proof (Rmult_le_compat_l u _ _ ltac:(lra) QS) as J8.
      replace (rnd (sqrt (B2R s)) - len c1 c2) with ((rnd (sqrt (B2R s)) - sqrt (B2R s)) + ((sqrt (B2R s) - l) + (l - len c1 c2))) by ring.
      eapply Rle_trans; [apply Rabs_triang|]. pose proof (Rabs_triang (sqrt (B2R s) - l) (l - len c1 c2)). pose proof (Rmult_le_pos u B ltac:(lra) B0). lra.
    Qed.
  End Scalar.
End Machine.

Lemma blend_example (h := f64 1 (-1)) (i := f64 1 0) (t := f64 1 1) (n := f64 (-2) 0) (f := Iv (Ivl h i : ivl float64)) (a := Iv (Ivl i t : ivl float64)) (b := Sc (i : float64)) (x := Iv (Ivl n i : ivl float64)) (y := Iv (Ivl i t : ivl float64)) (u := bpow radix2 (-53)) :
  finite_arg f /\ finite_arg a /\ finite_arg b /\ finite_arg x /\ finite_arg y /\ 0 <= B2R (alower f) /\ B2R (aupper f) <= 1 /\ bounded_by 2 x /\ bounded_by 2 y /\ 0 <= 2 <= bpow radix2 (1024 - 3)
  /\ 0 <= B2R (alower a) /\ 0 <= B2R (alower b) /\ 0 < B2R (alower a) + B2R (alower b) /\ B2R (aupper a) <= bpow radix2 (1024 - 2) /\ B2R (aupper b) <= bpow radix2 (1024 - 2)
  /\ B2R (alower a) / (B2R (alower a) + B2R (aupper b)) + 6 * u <= B2R (aupper a) / (B2R (aupper a) + B2R (alower b)) /\ (4 * 2 + 2) * (4 * 2 + 2) <= bpow radix2 (1024 - 2).
Proof.
  assert (E1 : B2R h = / 2) by (unfold h, B2R, F2R; cbn; lra). assert (E2 : B2R i = 1) by (unfold i, B2R, F2R; cbn; lra). assert (E3 : B2R t = 2) by (unfold t, B2R, F2R; cbn; lra). assert (E4 : B2R n = -2) by (unfold n, B2R, F2R; cbn; lra).
  assert (U : u = / 9007199254740992) by reflexivity. assert (T : 128 <= bpow radix2 (1024 - 3)) by (change 128 with (bpow radix2 7); apply bpow_le; lia). assert (T' : 128 <= bpow radix2 (1024 - 2)) by (change 128 with (bpow radix2 7); apply bpow_le; lia).
  clearbody u. unfold finite_arg, bounded_by, f, a, b, x, y. cbn [alower aupper lo hi]. setoid_rewrite E1. setoid_rewrite E2. setoid_rewrite E3. setoid_rewrite E4.
  rewrite (Rabs_left1 (-2)), (Rabs_pos_eq 1), (Rabs_pos_eq 2) by lra. repeat (split; [repeat split; reflexivity || lra|]). lra.
Qed.
