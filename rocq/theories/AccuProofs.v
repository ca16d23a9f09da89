(** Rounding errors of single operations (C80). *)
From Coq Require Import Reals ZArith Bool List Lra Psatz.
From Flocq Require Import Core BinarySingleNaN.
From Verif Require Import Outcome SetModel Spec Num NumLaws IntervalModel IvlSpec IvlProofs XReal FloatNum FloatMath FloatProofs FloatMathProofs ConstrainProofs5
  ValueTypes RoundSpec RoundProofs MachineSpec TrigMachineProofs PowNearProofs LibMachineProofs RealMath LangModel LangProofs MathModel MathSpec MathProofs AccuSpec.
Import ListNotations.
Open Scope R_scope.

(** ** Real numbers *)
Lemma clip a b d r : a <= b -> 0 <= d -> a - d <= r <= b + d -> exists q, a <= q <= b /\ Rabs (r - q) <= d.
Proof.
  intros O D H. destruct (Rle_dec r a); [exists a|destruct (Rle_dec b r); [exists b|exists r]]; (split; [lra|]); apply Rabs_le; lra.
Qed.
Lemma abs_bound a b q : a <= q <= b -> Rabs q <= Rmax (Rabs a) (Rabs b).
Proof. intros H. unfold Rmax. destruct Rle_dec; unfold Rabs in *; repeat destruct Rcase_abs; lra. Qed.
Lemma abs_least a b q : ~ (a <= 0 <= b) -> a <= q <= b -> Rmin (Rabs a) (Rabs b) <= Rabs q.
Proof. intros Z H. unfold Rmin. destruct Rle_dec; unfold Rabs in *; repeat destruct Rcase_abs; lra. Qed.
Lemma mul_drift r q s t dx dy mx my : Rabs (r - q) <= dx -> Rabs (s - t) <= dy -> Rabs q <= mx -> Rabs t <= my ->
  Rabs (r * s - q * t) <= dx * my + mx * dy + dx * dy.
Proof.
  intros A B C D. replace (r * s - q * t) with ((r - q) * t + q * (s - t) + (r - q) * (s - t)) by ring.
  eapply Rle_trans; [apply Rabs_triang|]. apply Rplus_le_compat.
  - eapply Rle_trans; [apply Rabs_triang|]. rewrite !Rabs_mult. apply Rplus_le_compat; apply Rmult_le_compat; auto using Rabs_pos.
  - rewrite Rabs_mult. apply Rmult_le_compat; auto using Rabs_pos.
Qed.
Lemma div_drift r q s t dx dy mx g : Rabs (r - q) <= dx -> Rabs (s - t) <= dy -> Rabs q <= mx -> g <= Rabs t -> dy < g ->
  s <> 0 /\ Rabs (r / s - q / t) <= (dx + mx / g * dy) / (g - dy).
Proof.
  intros A B C D E. pose proof (Rabs_pos (r - q)). pose proof (Rabs_pos (s - t)). pose proof (Rabs_pos q).
  assert (T : t <> 0) by (intros ->; rewrite Rabs_R0 in D; lra).
  assert (S : g - dy <= Rabs s). { pose proof (Rabs_triang_inv t (t - s)) as K. replace (t - (t - s)) with s in K by ring. rewrite Rabs_minus_sym in B. lra. }
  assert (S0 : s <> 0) by (intros ->; rewrite Rabs_R0 in S; lra). split; [exact S0|].
  replace (r / s - q / t) with (((r - q) - q / t * (s - t)) / s) by (field; auto).
  unfold Rdiv at 1. rewrite Rabs_mult, Rabs_inv. apply Rmult_le_compat; [apply Rabs_pos|left; apply Rinv_0_lt_compat; lra| |apply Rinv_le; lra].
  eapply Rle_trans; [apply Rabs_triang|]. rewrite Rabs_Ropp, Rabs_mult. apply Rplus_le_compat; [exact A|]. apply Rmult_le_compat; [apply Rabs_pos|apply Rabs_pos| |exact B].
  unfold Rdiv. rewrite Rabs_mult, Rabs_inv. apply Rmult_le_compat; [apply Rabs_pos|left; apply Rinv_0_lt_compat; lra|exact C|apply Rinv_le; lra].
Qed.
Lemma square_drift r q d m : Rabs (r - q) <= d -> Rabs q <= m -> Rabs (r * r - q * q) <= d * (2 * m + d).
Proof. intros A B. eapply Rle_trans; [exact (mul_drift r q r q d d m m A A B B)|]. lra. Qed.
Lemma cube_drift r q d m : Rabs (r - q) <= d -> Rabs q <= m -> Rabs (r * r * r - q * q * q) <= d * (3 * m * m + 3 * m * d + d * d).
Proof.
  intros A B. assert (Q : Rabs (q * q) <= m * m) by (rewrite Rabs_mult; apply Rmult_le_compat; auto using Rabs_pos).
  eapply Rle_trans; [exact (mul_drift (r * r) (q * q) r q _ d (m * m) m (square_drift r q d m A B) A Q B)|]. lra.
Qed.
Lemma sqrt_drift r q d l : Rabs (r - q) <= d -> d <= l -> l <= q -> 0 <= r /\ Rabs (sqrt r - sqrt q) <= d / (sqrt (l - d) + sqrt l).
Proof.
  intros A B C. pose proof (Rabs_pos (r - q)) as P. pose proof A as A'. apply Rabs_le_inv in A'. assert (R0 : 0 <= r) by lra. split; [exact R0|].
  pose proof (sqrt_pos (l - d)) as S1. pose proof (sqrt_pos l) as S2. assert (S3 : sqrt (l - d) <= sqrt r) by (apply sqrt_le_1; lra). assert (S4 : sqrt l <= sqrt q) by (apply sqrt_le_1; lra).
  destruct (Rle_lt_or_eq_dec 0 l ltac:(lra)) as [H|H].
  - assert (G : 0 < sqrt l) by (now apply sqrt_lt_R0). apply Rmult_le_reg_r with (sqrt (l - d) + sqrt l); [lra|]. replace (d / (sqrt (l - d) + sqrt l) * (sqrt (l - d) + sqrt l)) with d by (field; lra).
    apply Rle_trans with (Rabs (sqrt r - sqrt q) * (sqrt r + sqrt q)); [apply Rmult_le_compat_l; [apply Rabs_pos|lra]|].
    rewrite <- (Rabs_pos_eq (sqrt r + sqrt q)) by lra. rewrite <- Rabs_mult.
    replace ((sqrt r - sqrt q) * (sqrt r + sqrt q)) with (sqrt r * sqrt r - sqrt q * sqrt q) by ring. rewrite !sqrt_sqrt by lra. exact A.
  - assert (d = 0) by lra. subst d l. assert (r = q) by lra. subst r. rewrite Rminus_diag_eq, Rabs_R0 by reflexivity. unfold Rdiv. rewrite Rmult_0_l. lra.
Qed.
Lemma exp_drift r q d u : Rabs (r - q) <= d -> q <= u -> Rabs (exp r - exp q) <= exp u * (exp d - 1).
Proof.
  intros A B. pose proof (Rabs_pos (r - q)) as P. apply Rabs_le_inv in A.
  assert (M : forall a b, a <= b -> exp a <= exp b) by (intros a b [H| ->]; [left; now apply exp_increasing|apply Rle_refl]).
  assert (E : exp d * exp (- d) = 1) by (rewrite <- exp_plus, Rplus_opp_r; apply exp_0). pose proof (exp_pos d). pose proof (exp_pos (- d)). pose proof (exp_pos q).
  assert (D1 : 1 <= exp d) by (rewrite <- exp_0; apply M; lra).
  assert (U : exp r <= exp q * exp d) by (rewrite <- exp_plus; apply M; lra). assert (L : exp q * exp (- d) <= exp r) by (rewrite <- exp_plus; apply M; lra).
  assert (Q : exp q * (exp d - 1) <= exp u * (exp d - 1)) by (apply Rmult_le_compat_r; [lra|now apply M]).
  assert (I : 1 - exp (- d) <= exp d - 1) by (assert (0 <= (exp d - 1) * (exp d - 1)) by apply Rle_0_sqr; nra).
  apply Rabs_le. split; nra.
Qed.
Lemma ln_up a b : 0 < a -> a <= b -> ln b - ln a <= (b - a) / a.
Proof.
  intros A B. replace (ln b - ln a) with (ln (b / a)) by (unfold Rdiv; rewrite ln_mult, ln_Rinv by (try apply Rinv_0_lt_compat; lra); ring). replace (b / a) with (1 + (b - a) / a) by (field; lra).
  assert (0 <= (b - a) / a) by (apply Rmult_le_pos; [lra|left; now apply Rinv_0_lt_compat]).
  assert (K : ln (1 + (b - a) / a) <= ln (exp ((b - a) / a))).
  { destruct (Req_dec ((b - a) / a) 0) as [->|N]; [rewrite exp_0, Rplus_0_r; lra|]. left. apply ln_increasing; [lra|]. now apply exp_ineq1. }
  now rewrite ln_exp in K.
Qed.
Lemma ln_drift r q d l : Rabs (r - q) <= d -> d < l -> l <= q -> 0 < r /\ Rabs (ln r - ln q) <= d / (l - d).
Proof.
  intros A B C. pose proof (Rabs_pos (r - q)) as P. pose proof A as A'. apply Rabs_le_inv in A'. assert (R0 : 0 < r) by lra. split; [exact R0|].
  assert (K : forall a b, l - d <= a -> a <= b -> b - a <= d -> ln b - ln a <= d / (l - d) /\ 0 <= ln b - ln a).
  { intros a b H1 H2 H3. split.
    - eapply Rle_trans; [apply ln_up; lra|]. apply Rmult_le_compat; [lra|left; apply Rinv_0_lt_compat; lra|exact H3|apply Rinv_le; lra].
    - destruct H2 as [H2| ->]; [pose proof (ln_increasing a b); lra|lra]. }
  destruct (Rle_dec r q).
  - destruct (K r q) as [K1 K2]; try lra. rewrite Rabs_minus_sym, Rabs_pos_eq by lra. exact K1.
  - destruct (K q r) as [K1 K2]; try lra. rewrite Rabs_pos_eq by lra. exact K1.
Qed.
Lemma atan_drift r q d : Rabs (r - q) <= d -> Rabs (atan r - atan q) <= d.
Proof.
  intros A. assert (K : forall a b, a < b -> atan b - atan a <= b - a /\ 0 <= atan b - atan a).
  { intros a b H. destruct (MVT_cor2 atan (fun x => / (1 + x ^ 2)) a b H) as (c & E & _).
    { intros c _. apply derivable_pt_lim_atan. }
    assert (C : 0 < / (1 + c ^ 2) <= 1). { pose proof (pow2_ge_0 c). split; [apply Rinv_0_lt_compat; lra|]. rewrite <- Rinv_1. apply Rinv_le; lra. }
    rewrite E. nra. }
  apply Rabs_le_inv in A. destruct (Rtotal_order r q) as [H|[->|H]].
  - destruct (K r q H). rewrite Rabs_minus_sym, Rabs_pos_eq by lra. lra.
  - rewrite Rminus_diag_eq, Rabs_R0 by reflexivity. lra.
  - destruct (K q r H). rewrite Rabs_pos_eq by lra. lra.
Qed.
Lemma max_drift r q s t dx dy : Rabs (r - q) <= dx -> Rabs (s - t) <= dy -> Rabs (Rmax r s - Rmax q t) <= Rmax dx dy /\ Rabs (Rmin r s - Rmin q t) <= Rmax dx dy.
Proof. intros A B. apply Rabs_le_inv in A, B. split; apply Rabs_le; unfold Rmax, Rmin; repeat destruct Rle_dec; lra. Qed.

Section Operations.
  Context (prec emax : Z) (Hp : Prec_gt_0 prec) (He : Prec_lt_emax prec emax).
  Notation F := (float_num prec emax Hp He).
  Notation f2x := (@f2x prec emax).
  Notation rd := (@rd prec emax).
  Let D := float_denotes prec emax Hp He.
  Context (L : libm (binary_float prec emax)) (acc : unop -> R) (dbg : bool).
  Notation M := (float_math prec emax Hp He L).
  Implicit Types (x y a : arg F).

  Lemma half_ulp_le r s : Rabs r <= Rabs s -> half_ulp prec emax r <= half_ulp prec emax s.
  Proof. intros H. unfold half_ulp. apply Rmult_le_compat_l; [lra|]. apply ulp_le; auto with typeclass_instances. Qed.
  Lemma half_ulp_pos r : 0 <= half_ulp prec emax r.
  Proof. unfold half_ulp. apply Rmult_le_pos; [lra|apply ulp_ge_0]. Qed.
  Lemma magnitude_pos a : 0 <= magnitude a.
  Proof. eapply Rle_trans; [apply Rabs_pos|apply Rmax_l]. Qed.
  Lemma roundoff_pos a : 0 <= roundoff a. Proof. apply half_ulp_pos. Qed.
  Lemma within_magnitude a r : within a r -> Rabs r <= magnitude a. Proof. apply abs_bound. Qed.
  Lemma within_mignitude a r : ~ within a 0 -> within a r -> mignitude a <= Rabs r. Proof. apply abs_least. Qed.

  (** The end points are rounded values of a range. *)
  Lemma nearest_ends a l u v : nearest l (alower a) -> nearest u (aupper a) -> finite_ends a -> l <= v <= u -> near (roundoff a) a v.
  Proof.
    intros Nl Nu [Fl Fu] H. pose proof (nearest_close prec emax Hp He _ _ Nl Fl) as A. pose proof (nearest_close prec emax Hp He _ _ Nu Fu) as B.
    assert (C1 : half_ulp prec emax (B2R (alower a)) <= roundoff a). { apply half_ulp_le. rewrite (Rabs_pos_eq (magnitude a)) by apply magnitude_pos. apply Rmax_l. }
    assert (C2 : half_ulp prec emax (B2R (aupper a)) <= roundoff a). { apply half_ulp_le. rewrite (Rabs_pos_eq (magnitude a)) by apply magnitude_pos. apply Rmax_r. }
    apply Rabs_le_inv in A, B. unfold near. lra.
  Qed.
  Lemma nearest_order l u (p q : F) : l <= u -> nearest l p -> nearest u q -> is_finite p = true -> is_finite q = true -> B2R p <= B2R q.
  Proof.
    intros H [P1 P2] [Q1 Q2] Fp Fq.
    assert (Ep : B2R p = rn prec emax l). { destruct (Rlt_or_le (Rabs (rn prec emax l)) (bpow radix2 emax)) as [K|K]; [now apply P1|]. rewrite (P2 K) in Fp. discriminate. }
    assert (Eq : B2R q = rn prec emax u). { destruct (Rlt_or_le (Rabs (rn prec emax u)) (bpow radix2 emax)) as [K|K]; [now apply Q1|]. rewrite (Q2 K) in Fq. discriminate. }
    rewrite Ep, Eq. unfold rn. apply round_le; auto with typeclass_instances.
  Qed.
  Lemma near_shift d d' a v w : near d a v -> Rabs (w - v) <= d' -> near (d' + d) a w.
  Proof. intros H K. apply Rabs_le_inv in K. unfold near in *. lra. Qed.
  Lemma near_clip d a r : finite_arg a -> 0 <= d -> near d a r -> exists q, within a q /\ Rabs (r - q) <= d.
  Proof. intros (_ & _ & O) H K. exact (clip _ _ d r O H K). Qed.

  (** ** Operators *)
  Definition real_bin (b : binop) : R -> R -> R := match b with BAdd => Rplus | BSub => Rminus | BMul => Rmult | BDiv => Rdiv | BMin => Rmin | BMax => Rmax end.
  Lemma bin_range b x y a : finite_arg x -> finite_arg y -> (b = BDiv -> ~ within y 0) -> match b with BMin | BMax => False | _ => True end -> lift2 dbg b x y = Ret a ->
    exists l u, (forall r s, within x r -> within y s -> l <= real_bin b r s <= u) /\ l <= u /\ nearest l (alower a) /\ nearest u (aupper a).
  Proof.
    intros Hx Hy Hz Nm E.
    assert (Q : forall Z, a = Iv Z -> ibin dbg b x y = Ret Z -> rounded_range2 (real_bin b) (ibin dbg b x y) x y ->
      exists l u, (forall r s, within x r -> within y s -> l <= real_bin b r s <= u) /\ l <= u /\ nearest l (alower a) /\ nearest u (aupper a)).
    { intros Z -> EZ (Z' & l & u & E' & (R1 & (p & q & W1 & W2 & _) & _) & Nl & Nu). rewrite EZ in E'. injection E' as <-. exists l, u. split; [exact R1|]. split; [|auto].
      specialize (R1 p q W1 W2). lra. }
    assert (RR : rounded_range2 (real_bin b) (ibin dbg b x y) x y).
    { destruct b; try contradiction; cbn [real_bin ibin]; [apply round_add|apply round_sub|apply round_mul|apply round_div]; auto. }
    destruct x as [v|X], y as [w|Y]; cbn [lift2] in E; apply bind_inv in E as (z & Ez & K); injection K as <-; try (apply (Q z); auto; fail).
    assert (Z : f2x z = rd (real_bin b (B2R v) (B2R w))).
    { destruct Hx as (Fv & _ & _), Hy as (Fw & _ & _). cbn [alower aupper] in *.
      destruct b; try contradiction; cbn [sbin real_bin] in *.
      - destruct (d_add _ _ _ D v w) as (z' & E' & Fz). rewrite Ez in E'. injection E' as <-. rewrite Fz, !f2x_finite by assumption. reflexivity.
      - destruct (d_sub _ _ _ D v w) as (z' & E' & Fz). rewrite Ez in E'. injection E' as <-. rewrite Fz, !f2x_finite by assumption. reflexivity.
      - destruct (d_mul _ _ _ D v w) as (z' & E' & Fz). rewrite Ez in E'. injection E' as <-. rewrite Fz, !f2x_finite by assumption. reflexivity.
      - assert (W0 : B2R w <> 0). { intros K. apply (Hz eq_refl). unfold within. cbn [alower aupper]. rewrite K. lra. }
        destruct (d_div _ _ _ D v w) as (z' & E' & Fz & _). rewrite Ez in E'. injection E' as <-. rewrite (f2x_finite _ _ w) in Fz by assumption.
        rewrite Fz by (intros K; injection K; exact W0). rewrite (f2x_finite _ _ v) by assumption. cbn. rewrite Req_bool_false by exact W0. reflexivity. }
    exists (real_bin b (B2R v) (B2R w)), (real_bin b (B2R v) (B2R w)). split; [|split; [apply Rle_refl|split; exact (nearest_rd prec emax Hp He _ _ Z)]].
    intros r s [R1 R2] [S1 S2]. cbn [alower aupper] in *. replace r with (B2R v) by lra. replace s with (B2R w) by lra. lra.
  Qed.
  Lemma minmax_ends b x y a : finite_arg x -> finite_arg y -> b = BMin \/ b = BMax -> lift2 dbg b x y = Ret a ->
    finite_arg a /\ B2R (alower a) = real_bin b (B2R (alower x)) (B2R (alower y)) /\ B2R (aupper a) = real_bin b (B2R (aupper x)) (B2R (aupper y)).
  Proof.
    intros Hx Hy B E. pose proof Hx as (F1 & F2 & O1). pose proof Hy as (G1 & G2 & O2).
    destruct (omin_real prec emax Hp He _ _ F1 G1) as [A1 A2], (omin_real prec emax Hp He _ _ F2 G2) as [A3 A4].
    destruct (omax_real prec emax Hp He _ _ F1 G1) as [B1 B2], (omax_real prec emax Hp He _ _ F2 G2) as [B3 B4].
    assert (Om : B2R (omin (alower x) (alower y) : binary_float prec emax) <= B2R (omin (aupper x) (aupper y) : binary_float prec emax)).
    { setoid_rewrite A2. setoid_rewrite A4. unfold Rmin. repeat destruct Rle_dec; lra. }
    assert (OM : B2R (omax (alower x) (alower y) : binary_float prec emax) <= B2R (omax (aupper x) (aupper y) : binary_float prec emax)).
    { setoid_rewrite B2. setoid_rewrite B4. unfold Rmax. repeat destruct Rle_dec; lra. }
    assert (Q : forall Z, imin dbg x y = Ret Z -> lo Z = omin (alower x) (alower y) /\ hi Z = omin (aupper x) (aupper y)).
    { intros Z EZ. unfold imin in EZ. apply bind_inv in EZ as (? & _ & EZ). rewrite (mk_real prec emax Hp He _ _ A1 A3 Om) in EZ. injection EZ as <-. auto. }
    assert (Q' : forall Z, imax dbg x y = Ret Z -> lo Z = omax (alower x) (alower y) /\ hi Z = omax (aupper x) (aupper y)).
    { intros Z EZ. unfold imax in EZ. apply bind_inv in EZ as (? & _ & EZ). rewrite (mk_real prec emax Hp He _ _ B1 B3 OM) in EZ. injection EZ as <-. auto. }
    assert (Al : (b = BMin -> alower a = omin (alower x) (alower y) /\ aupper a = omin (aupper x) (aupper y)) /\ (b = BMax -> alower a = omax (alower x) (alower y) /\ aupper a = omax (aupper x) (aupper y))).
    { destruct x as [v|X], y as [w|Y]; cbn [lift2] in E; apply bind_inv in E as (z & Ez & K); injection K as <-; (split; intros ->); cbn [ibin sbin] in Ez;
        first [exact (Q z Ez)|exact (Q' z Ez)|injection Ez as <-; split; reflexivity]. }
    destruct B as [-> | ->]; [destruct (proj1 Al eq_refl) as [E1 E2]|destruct (proj2 Al eq_refl) as [E1 E2]]; unfold finite_arg; rewrite E1, E2; cbn [real_bin].
    - split; [exact (conj A1 (conj A3 Om))|]. split; [exact A2|exact A4].
    - split; [exact (conj B1 (conj B3 OM))|]. split; [exact B2|exact B4].
  Qed.
  Lemma bin_accuracy b x y a dx dy r s : finite_arg x -> finite_arg y -> 0 <= dx -> 0 <= dy -> bin_safe b dy y -> lift2 dbg b x y = Ret a -> finite_ends a -> near dx x r -> near dy y s ->
    finite_arg a /\ 0 <= bin_bound b dx dy x y a /\ exists v, bin_value b r s v /\ near (bin_bound b dx dy x y a) a v.
  Proof.
    intros Hx Hy Dx Dy Sf E Fa Nx Ny.
    destruct (near_clip dx x r Hx Dx Nx) as (q & Wq & Kq). destruct (near_clip dy y s Hy Dy Ny) as (t & Wt & Kt).
    pose proof (within_magnitude x q Wq) as Mq. pose proof (within_magnitude y t Wt) as Mt. pose proof (magnitude_pos x) as Px. pose proof (magnitude_pos y) as Py. pose proof (roundoff_pos a) as Pa.
    assert (C : (b = BMin \/ b = BMax) \/ match b with BMin | BMax => False | _ => True end) by (destruct b; auto).
    destruct C as [C|C].
    - destruct (minmax_ends b x y a Hx Hy C E) as (FA & E1 & E2). split; [exact FA|].
      assert (P : 0 <= Rmax dx dy) by (eapply Rle_trans; [exact Dx|apply Rmax_l]).
      destruct (max_drift r q s t dx dy Kq Kt) as [K1 K2]. destruct Wq as [Q1 Q2], Wt as [T1 T2].
      destruct C as [-> | ->]; cbn [bin_bound bin_value real_bin] in *; (split; [exact P|]); eexists; (split; [reflexivity|]); unfold near; rewrite E1, E2.
      + apply Rabs_le_inv in K2. assert (K : forall p p' w w', p <= p' -> w <= w' -> Rmin p w <= Rmin p' w') by (intros; unfold Rmin; repeat destruct Rle_dec; lra).
        pose proof (K _ _ _ _ Q1 T1). pose proof (K _ _ _ _ Q2 T2). lra.
      + apply Rabs_le_inv in K1. assert (K : forall p p' w w', p <= p' -> w <= w' -> Rmax p w <= Rmax p' w') by (intros; unfold Rmax; repeat destruct Rle_dec; lra).
        pose proof (K _ _ _ _ Q1 T1). pose proof (K _ _ _ _ Q2 T2). lra.
    - assert (Z : b = BDiv -> ~ within y 0) by (intros ->; apply Sf).
      destruct (bin_range b x y a Hx Hy Z C E) as (l & u & HR & O & Nl & Nu).
      pose proof (nearest_ends a l u (real_bin b q t) Nl Nu Fa (HR q t Wq Wt)) as Nv.
      split; [exact (conj (proj1 Fa) (conj (proj2 Fa) (nearest_order l u _ _ O Nl Nu (proj1 Fa) (proj2 Fa))))|].
      assert (G : forall d v, 0 <= d -> bin_value b r s v -> Rabs (v - real_bin b q t) <= d -> bin_bound b dx dy x y a = d + roundoff a ->
        0 <= bin_bound b dx dy x y a /\ exists v, bin_value b r s v /\ near (bin_bound b dx dy x y a) a v).
      { intros d v Pd Bv Kv ->. split; [lra|]. exists v. split; [exact Bv|]. exact (near_shift _ _ _ _ _ Nv Kv). }
      destruct b; try contradiction; cbn [bin_value real_bin bin_bound] in *.
      + apply (G (dx + dy) (r + s)); [lra|reflexivity| |reflexivity]. apply Rabs_le_inv in Kq, Kt. apply Rabs_le. lra.
      + apply (G (dx + dy) (r - s)); [lra|reflexivity| |reflexivity]. apply Rabs_le_inv in Kq, Kt. apply Rabs_le. lra.
      + apply (G (dx * magnitude y + magnitude x * dy + dx * dy) (r * s)); [|reflexivity|now apply mul_drift|reflexivity].
        assert (0 <= dx * magnitude y) by (now apply Rmult_le_pos). assert (0 <= magnitude x * dy) by (now apply Rmult_le_pos). assert (0 <= dx * dy) by (now apply Rmult_le_pos). lra.
      + destruct Sf as [Z0 Sf]. pose proof (within_mignitude y t Z0 Wt) as Gt.
        destruct (div_drift r q s t dx dy (magnitude x) (mignitude y) Kq Kt Mq Gt Sf) as [S0 K].
        apply (G ((dx + magnitude x / mignitude y * dy) / (mignitude y - dy)) (r / s)); [|split; [exact S0|reflexivity]|exact K|reflexivity].
        eapply Rle_trans; [apply Rabs_pos|exact K].
  Qed.

  (** ** Functions *)
  Lemma nearest_exact (w z : F) : is_finite w = true -> nearest (B2R w) z -> is_finite z = true -> B2R z = B2R w.
  Proof.
    intros Fw [N1 N2] Fz. assert (G : rn prec emax (B2R w) = B2R w). { unfold rn. apply round_generic; auto with typeclass_instances. apply (generic_format_B2R prec emax w). }
    destruct (Rlt_or_le (Rabs (rn prec emax (B2R w))) (bpow radix2 emax)) as [K|K]; [rewrite (proj2 (N1 K)); exact G|]. rewrite (N2 K) in Fz. discriminate.
  Qed.
  Lemma un_range (f : R -> R) u x a : finite_arg x -> lift1 (Some M) dbg u x = Ret a -> finite_ends a ->
    (forall X, x = Iv X -> rounded_range1 f (iun (Some M) dbg u X) (Iv X)) ->
    (forall v, x = Sc v -> forall z, sun (Some M) dbg u v = Ret z -> f2x z = rd (f (B2R v))) ->
    exists l h, (forall r, within x r -> l <= f r <= h) /\ (exists r, within x r /\ f r = l) /\ (exists r, within x r /\ f r = h) /\ nearest l (alower a) /\ nearest h (aupper a) /\ finite_arg a.
  Proof.
    intros Hx E Fa HI HS. destruct x as [v|X]; cbn [lift1] in E; apply bind_inv in E as (z & Ez & K); injection K as <-.
    - pose proof (nearest_rd prec emax Hp He _ _ (HS v eq_refl z Ez)) as N. exists (f (B2R v)), (f (B2R v)).
      assert (W : within (Sc v) (B2R v)) by (split; apply Rle_refl).
      split; [intros r [R1 R2]; cbn [alower aupper] in *; replace r with (B2R v) by lra; lra|]. split; [eauto|]. split; [eauto|]. split; [exact N|]. split; [exact N|].
      split; [apply Fa|]. split; [apply Fa|apply Rle_refl].
    - destruct (HI X eq_refl) as (Z & l & h & EZ & (R1 & R2 & R3) & Nl & Nh). rewrite Ez in EZ. injection EZ as <-. exists l, h. repeat (split; [assumption|]).
      split; [apply Fa|]. split; [apply Fa|]. destruct R2 as (p & Wp & Ep). apply (nearest_order l h); auto; [|apply Fa|apply Fa]. specialize (R1 p Wp). lra.
  Qed.
  Lemma neg_value (v z : F) : is_finite v = true -> n_neg v = Ret z -> f2x z = rd (- B2R v).
  Proof. intros Fv E. destruct (d_neg _ _ _ D v) as (z' & E' & Fz). rewrite E in E'. injection E' as <-. rewrite <- (d_rd_id _ _ _ D z), Fz, (f2x_finite _ _ _ Fv). reflexivity. Qed.
  Lemma abs_value (v z : F) : is_finite v = true -> n_abs v = Ret z -> f2x z = rd (Rabs (B2R v)).
  Proof. intros Fv E. destruct (d_abs _ _ _ D v) as (z' & E' & Fz). rewrite E in E'. injection E' as <-. rewrite <- (d_rd_id _ _ _ D z), Fz, (f2x_finite _ _ _ Fv). reflexivity. Qed.
  Lemma mul_value (v w z : F) : is_finite v = true -> is_finite w = true -> n_mul v w = Ret z -> f2x z = rd (B2R v * B2R w).
  Proof. intros Fv Fw E. destruct (d_mul _ _ _ D v w) as (z' & E' & Fz). rewrite E in E'. injection E' as <-. rewrite Fz, !f2x_finite by assumption. reflexivity. Qed.
  Lemma mul_finite (v w z : F) : n_mul v w = Ret z -> is_finite z = true -> is_finite v = true.
  Proof. cbn. intros E. injection E as <-. destruct v, w; cbn; try discriminate; auto. Qed.
  Lemma rn_half_ulp r : Rabs (rn prec emax r - r) <= half_ulp prec emax r.
  Proof. unfold rn, half_ulp. apply error_le_half_ulp; auto with typeclass_instances. Qed.
  Lemma value_close (z : F) r : f2x z = rd r -> is_finite z = true -> B2R z = rn prec emax r.
  Proof.
    intros E Fz. pose proof (nearest_rd prec emax Hp He _ _ E) as [N1 N2]. destruct (Rlt_or_le (Rabs (rn prec emax r)) (bpow radix2 emax)) as [K|K]; [now apply N1|]. rewrite (N2 K) in Fz. discriminate.
  Qed.
  Lemma cube_value (v z : F) m : is_finite v = true -> ncube v = Ret z -> is_finite z = true -> Rabs (B2R v) <= m ->
    Rabs (B2R z - B2R v * B2R v * B2R v) <= m * half_ulp prec emax (m * m) + half_ulp prec emax (B2R z).
  Proof.
    intros Fv E Fz Hm. unfold ncube in E. apply bind_inv in E as (s & Es & E). pose proof (mul_finite s v z E Fz) as Fs.
    pose proof (value_close s _ (mul_value v v s Fv Fv Es) Fs) as S. pose proof (mul_value s v z Fs Fv E) as Z.
    pose proof (nearest_close prec emax Hp He _ _ (nearest_rd prec emax Hp He _ _ Z) Fz) as C.
    pose proof (rn_half_ulp (B2R v * B2R v)) as Q. rewrite <- S in Q. pose proof (Rabs_pos (B2R v)) as P.
    assert (K : half_ulp prec emax (B2R v * B2R v) <= half_ulp prec emax (m * m)). { apply half_ulp_le. rewrite !Rabs_mult. rewrite (Rabs_pos_eq m) by lra. apply Rmult_le_compat; auto. }
    replace (B2R z - B2R v * B2R v * B2R v) with ((B2R s - B2R v * B2R v) * B2R v + (B2R z - B2R s * B2R v)) by ring.
    eapply Rle_trans; [apply Rabs_triang|]. rewrite Rabs_mult. apply Rplus_le_compat; [|exact C]. rewrite Rmult_comm. apply Rmult_le_compat; auto using Rabs_pos. lra.
  Qed.
  Lemma cube_range x a : finite_arg x -> lift1 (Some M) dbg UCube x = Ret a -> finite_ends a ->
    finite_arg a /\ forall q, within x q -> near (magnitude x * half_ulp prec emax (magnitude x * magnitude x) + roundoff a) a (q * q * q).
  Proof.
    intros Hx E Fa. pose proof Hx as (F1 & F2 & O).
    assert (C : ncube (alower x) = Ret (alower a) /\ ncube (aupper x) = Ret (aupper a) /\ B2R (alower a) <= B2R (aupper a)).
    { destruct x as [v|X]; cbn [lift1 sun iun] in E; apply bind_inv in E as (z & Ez & K); injection K as <-; [repeat split; auto; apply Rle_refl|].
      unfold icube in Ez. apply bind_inv in Ez as (? & _ & Ez). apply bind_inv in Ez as (l & El & Ez). apply bind_inv in Ez as (u & Eu & Ez).
      unfold mk in Ez. destruct (o_lt u l) eqn:O'; [discriminate|]. injection Ez as <-. cbn [alower aupper lo hi] in *. split; [exact El|]. split; [exact Eu|].
      destruct Fa as [A1 A2]. cbn [alower aupper lo hi] in *. cbn in O'. rewrite Bltb_correct in O' by assumption. destruct (Rlt_bool_spec (B2R u) (B2R l)); [discriminate|assumption]. }
    destruct C as (C1 & C2 & C3). split; [exact (conj (proj1 Fa) (conj (proj2 Fa) C3))|]. intros q [Q1 Q2].
    assert (M1 : Rabs (B2R (alower x)) <= magnitude x) by apply Rmax_l. assert (M2 : Rabs (B2R (aupper x)) <= magnitude x) by apply Rmax_r.
    pose proof (cube_value _ _ _ F1 C1 (proj1 Fa) M1) as K1. pose proof (cube_value _ _ _ F2 C2 (proj2 Fa) M2) as K2.
    assert (R1 : half_ulp prec emax (B2R (alower a)) <= roundoff a). { apply half_ulp_le. rewrite (Rabs_pos_eq (magnitude a)) by apply magnitude_pos. apply Rmax_l. }
    assert (R2 : half_ulp prec emax (B2R (aupper a)) <= roundoff a). { apply half_ulp_le. rewrite (Rabs_pos_eq (magnitude a)) by apply magnitude_pos. apply Rmax_r. }
    assert (CM : forall p r, p <= r -> p * p * p <= r * r * r). { intros p r H. assert (0 <= (r - p) * ((r + p) * (r + p) + r * r + p * p)) by (apply Rmult_le_pos; nra). nra. }
    pose proof (CM _ _ Q1). pose proof (CM _ _ Q2). apply Rabs_le_inv in K1, K2. unfold near. lra.
  Qed.
  Lemma lib_range (f : R -> R) (g : F -> F) eps u x a : finite_arg x -> lift1 (Some M) dbg u x = Ret a -> fn_within (Hp := Hp) (He := He) eps f g x ->
    (forall X, x = Iv X -> near_range eps f (iun (Some M) dbg u X) (Iv X)) -> (forall v z, x = Sc v -> sun (Some M) dbg u v = Ret z -> z = g v) ->
    finite_arg a /\ forall q, within x q -> near eps a (f q).
  Proof.
    intros Hx E W HI HS. destruct x as [v|X]; cbn [lift1] in E; apply bind_inv in E as (z & Ez & K); injection K as <-.
    - rewrite (HS v z eq_refl Ez). assert (Wv : within (Sc v) (B2R v)) by (split; apply Rle_refl). destruct (W v (proj1 Hx) Wv) as [G K].
      split; [split; [exact G|split; [exact G|apply Rle_refl]]|]. intros q [Q1 Q2]. cbn [alower aupper] in *. replace q with (B2R v) by lra. apply Rabs_le_inv in K. unfold near. cbn [alower aupper]. lra.
    - destruct (HI X eq_refl) as (Z & EZ & FZ & R1 & _). rewrite Ez in EZ. injection EZ as <-. split; [exact FZ|exact R1].
  Qed.
  Lemma un_accuracy u x a d r : finite_arg x -> 0 <= d -> un_safe L acc u d x -> lift1 (Some M) dbg u x = Ret a -> finite_ends a -> near d x r ->
    finite_arg a /\ 0 <= un_bound acc u d x a /\ exists v, un_value u r v /\ near (un_bound acc u d x a) a v.
  Proof.
    intros Hx Pd Sf E Fa Nx. destruct (near_clip d x r Hx Pd Nx) as (q & Wq & Kq).
    pose proof (within_magnitude x q Wq) as Mq. pose proof (magnitude_pos x) as Px. pose proof (roundoff_pos a) as Pa. pose proof Hx as (F1 & F2 & O).
    assert (G : forall e0 d' v w, near e0 a w -> 0 <= e0 -> un_value u r v -> Rabs (v - w) <= d' -> un_bound acc u d x a = d' + e0 ->
      0 <= un_bound acc u d x a /\ exists v, un_value u r v /\ near (un_bound acc u d x a) a v).
    { intros e0 d' v w Nw P0 Bv Kv ->. pose proof (Rabs_pos (v - w)). split; [lra|]. exists v. split; [exact Bv|]. exact (near_shift _ _ _ _ _ Nw Kv). }
    destruct u; try contradiction.
    - (* plus *) assert (A : a = x). { destruct x as [v|X]; cbn [lift1 sun iun] in E; apply bind_inv in E as (z & Ez & K); injection K as <-; [injection Ez as <-; reflexivity|]. unfold iplus in Ez. apply bind_inv in Ez as (? & _ & Ez). injection Ez as <-. reflexivity. }
      subst a. split; [exact Hx|]. split; [exact Pd|]. exists r. split; [reflexivity|exact Nx].
    - (* neg *) destruct (un_range Ropp UNeg x a Hx E Fa) as (l & h & R1 & (p & Wp & El) & (p' & Wp' & Eh) & Nl & Nh & FA).
      { intros X ->. apply round_neg. exact Hx. } { intros v -> z Ez. exact (neg_value v z F1 Ez). }
      assert (L1 : l = - B2R (aupper x)). { pose proof (R1 (B2R (aupper x)) ltac:(unfold within; lra)). unfold within in *. lra. }
      assert (H1 : h = - B2R (alower x)). { pose proof (R1 (B2R (alower x)) ltac:(unfold within; lra)). unfold within in *. lra. }
      rewrite L1, <- B2R_Bopp in Nl. rewrite H1, <- B2R_Bopp in Nh.
      pose proof (nearest_exact _ _ (eq_trans (is_finite_Bopp _ _ _) F2) Nl (proj1 Fa)) as A1. pose proof (nearest_exact _ _ (eq_trans (is_finite_Bopp _ _ _) F1) Nh (proj2 Fa)) as A2. rewrite B2R_Bopp in A1, A2.
      split; [exact FA|]. split; [exact Pd|]. exists (- r). split; [reflexivity|]. unfold near in *. cbn [un_bound]. rewrite A1, A2. lra.
    - (* square *) destruct (un_range (fun r => r * r) USquare x a Hx E Fa) as (l & h & R1 & _ & _ & Nl & Nh & FA).
      { intros X ->. apply round_square. exact Hx. } { intros v -> z Ez. exact (mul_value v v z F1 F1 Ez). }
      split; [exact FA|]. apply (G (roundoff a) (d * (2 * magnitude x + d)) (r * r) (q * q)); [exact (nearest_ends a l h _ Nl Nh Fa (R1 q Wq))|exact Pa|reflexivity|now apply square_drift|reflexivity].
    - (* cube *) destruct (cube_range x a Hx E Fa) as [FA K]. split; [exact FA|].
      eapply (G _ (d * (3 * magnitude x * magnitude x + 3 * magnitude x * d + d * d)) (r * r * r) (q * q * q)); [exact (K q Wq)| |reflexivity|now apply cube_drift|cbn [un_bound]; ring].
      assert (0 <= magnitude x * half_ulp prec emax (magnitude x * magnitude x)) by (apply Rmult_le_pos; [exact Px|apply half_ulp_pos]). lra.
    - (* abs *) destruct (un_range Rabs UAbs x a Hx E Fa) as (l & h & R1 & (p & Wp & El) & (p' & Wp' & Eh) & Nl & Nh & FA).
      { intros X ->. apply round_abs. exact Hx. } { intros v -> z Ez. exact (abs_value v z F1 Ez). }
      split; [exact FA|]. split; [exact Pd|]. exists (Rabs r). split; [reflexivity|].
      assert (C1 : B2R (alower a) = l).
      { assert (RL : exists w : F, is_finite w = true /\ B2R w = l).
        { pose proof (R1 _ (conj (Rle_refl _) O)) as A1. pose proof (R1 _ (conj O (Rle_refl _))) as A2.
          destruct (Rle_dec (B2R (alower x)) 0) as [K1|K1], (Rle_dec 0 (B2R (aupper x))) as [K2|K2].
          - exists (B754_zero false). split; [reflexivity|]. cbn [B2R]. pose proof (R1 0 (conj K1 K2)) as A0. rewrite Rabs_R0 in A0. pose proof (Rabs_pos p). lra.
          - exists (Babs (aupper x)). rewrite is_finite_Babs, B2R_Babs. split; [exact F2|]. destruct Wp as [W1 W2]. rewrite <- El in *. rewrite (Rabs_left (B2R (aupper x))) in * by lra. rewrite (Rabs_left p) in * by lra. lra.
          - exists (Babs (alower x)). rewrite is_finite_Babs, B2R_Babs. split; [exact F1|]. destruct Wp as [W1 W2]. rewrite <- El in *. rewrite (Rabs_pos_eq (B2R (alower x))) in * by lra. rewrite (Rabs_pos_eq p) in * by lra. lra.
          - lra. }
        destruct RL as (w & Fw & Ew). rewrite <- Ew in Nl |- *. exact (nearest_exact w _ Fw Nl (proj1 Fa)). }
      assert (C2 : B2R (aupper a) = h).
      { assert (RH : exists w : F, is_finite w = true /\ B2R w = h).
        { pose proof (R1 _ (conj (Rle_refl _) O)) as A1. pose proof (R1 _ (conj O (Rle_refl _))) as A2. pose proof (within_magnitude x p' Wp') as K. unfold magnitude, Rmax in K. destruct Rle_dec.
          - exists (Babs (aupper x)). rewrite is_finite_Babs, B2R_Babs. split; [exact F2|]. lra.
          - exists (Babs (alower x)). rewrite is_finite_Babs, B2R_Babs. split; [exact F1|]. lra. }
        destruct RH as (w & Fw & Ew). rewrite <- Ew in Nh |- *. exact (nearest_exact w _ Fw Nh (proj2 Fa)). }
      unfold near. cbn [un_bound]. rewrite C1, C2. specialize (R1 q Wq). pose proof (Rabs_triang_inv2 r q) as K. apply Rabs_le_inv in K. lra.
    - (* sqrt *) cbn [un_safe] in Sf. assert (L0 : 0 <= B2R (alower x)) by lra.
      destruct (un_range sqrt USqrt x a Hx E Fa) as (l & h & R1 & _ & _ & Nl & Nh & FA).
      { intros X ->. apply round_sqrt; [exact Hx|exact L0]. }
      { intros v -> z Ez. cbn [alower aupper] in *. cbn [sun with_math] in Ez. unfold ssqrt in Ez. apply bind_inv in Ez as (? & _ & Ez). injection Ez as <-.
        assert (V0 : o_le (n_zero : F) v = true) by (apply (nonneg_real prec emax Hp He); [exact F1|lra]).
        change (f2x (Bsqrt mode_NE v) = rd (sqrt (B2R v))). rewrite (sqrt_x prec emax Hp He v V0), (f2x_finite _ _ _ F1). reflexivity. }
      destruct (sqrt_drift r q d _ Kq Sf (proj1 Wq)) as [R0 K].
      split; [exact FA|]. apply (G (roundoff a) (d / (sqrt (B2R (alower x) - d) + sqrt (B2R (alower x)))) (sqrt r) (sqrt q)); [exact (nearest_ends a l h _ Nl Nh Fa (R1 q Wq))|exact Pa|split; [exact R0|reflexivity]|exact K|reflexivity].
    - (* exp *) destruct Sf as [W I]. destruct (lib_range exp (l_exp L) (acc UExp) UExp x a Hx E W) as [FA K].
      { intros X ->. now apply exp_near. } { intros v z -> Ez. cbn in Ez. injection Ez as <-. reflexivity. }
      assert (P0 : 0 <= acc UExp) by (eapply Rle_trans; [apply Rabs_pos|exact (proj2 (W _ F1 (conj (Rle_refl _) O)))]).
      split; [exact FA|]. apply (G (acc UExp) (exp (B2R (aupper x)) * (exp d - 1)) (exp r) (exp q)); [exact (K q Wq)|exact P0|reflexivity|exact (exp_drift r q d _ Kq (proj2 Wq))|reflexivity].
    - (* log *) destruct Sf as (Sf & W & I). destruct (lib_range ln (l_log L) (acc ULog) ULog x a Hx E W) as [FA K].
      { intros X ->. apply log_near; auto. cbn [alower] in Sf. lra. } { intros v z -> Ez. cbn [sun with_math] in Ez. unfold slog in Ez. apply bind_inv in Ez as (? & _ & Ez). injection Ez as <-. reflexivity. }
      assert (P0 : 0 <= acc ULog) by (eapply Rle_trans; [apply Rabs_pos|exact (proj2 (W _ F1 (conj (Rle_refl _) O)))]).
      destruct (ln_drift r q d _ Kq Sf (proj1 Wq)) as [R0 Kl].
      split; [exact FA|]. apply (G (acc ULog) (d / (B2R (alower x) - d)) (ln r) (ln q)); [exact (K q Wq)|exact P0|split; [exact R0|reflexivity]|exact Kl|reflexivity].
    - (* atan *) cbn [un_safe] in Sf. destruct (lib_range atan (l_atan L) (acc UAtan) UAtan x a Hx E Sf) as [FA K].
      { intros X ->. now apply atan_near. } { intros v z -> Ez. cbn in Ez. injection Ez as <-. reflexivity. }
      assert (P0 : 0 <= acc UAtan) by (eapply Rle_trans; [apply Rabs_pos|exact (proj2 (Sf _ F1 (conj (Rle_refl _) O)))]).
      split; [exact FA|]. apply (G (acc UAtan) d (atan r) (atan q)); [exact (K q Wq)|exact P0|reflexivity|exact (atan_drift r q d Kq)|reflexivity].
  Qed.
End Operations.
