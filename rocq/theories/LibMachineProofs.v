(** Machine intervals of cbrt, log, exp, asin, acos, atan, atan2 and the exact functions (C68). *)
From Coq Require Import Reals ZArith Bool Lra Lia.
From Flocq Require Import Core BinarySingleNaN.
From Verif Require Import Outcome SetModel MathModel FloatMath MathSpec FloatMathProofs Spec Num NumLaws IntervalModel IvlSpec IvlProofs XReal FloatNum FloatProofs
  ValueTypes MathProofs RoundSpec RoundProofs MachineSpec NumericFacts TrigMachineProofs SinMachineProofs RealNum RealMath MonoProofs PowMachineProofs Atan2Proofs PowNearProofs PowLibProofs.
Open Scope R_scope.

(** ** Approximate values at the end points *)
Lemma ends_near f eps a b A B : a <= b -> monotone f a b -> Rabs (A - f a) <= eps -> Rabs (B - f b) <= eps ->
  (forall r, a <= r <= b -> Rmin A B - eps <= f r <= Rmax A B + eps)
  /\ (exists r, a <= r <= b /\ Rabs (f r - Rmin A B) <= eps) /\ (exists r, a <= r <= b /\ Rabs (f r - Rmax A B) <= eps).
Proof.
  intros O M HA HB. assert (C : Rabs (f a - A) <= eps /\ Rabs (f b - B) <= eps) by (now rewrite !(Rabs_minus_sym (f _))). apply Rabs_le_inv in HA, HB. split; [|split].
  - intros r Hr. pose proof (monotone_between f a b M r Hr). unfold Rmin, Rmax in *. repeat destruct Rle_dec; lra.
  - unfold Rmin. destruct Rle_dec; [exists a|exists b]; split; lra || tauto.
  - unfold Rmax. destruct Rle_dec; [exists b|exists a]; split; lra || tauto.
Qed.
Ltac corner := match goal with |- exists r s, ?a <= r <= ?b /\ ?c <= s <= ?d /\ _ =>
  first [solve [exists a, c; repeat split; lra || assumption] | solve [exists a, d; repeat split; lra || assumption]
        | solve [exists b, c; repeat split; lra || assumption] | solve [exists b, d; repeat split; lra || assumption]] end.
Lemma corners_near (f : R -> R -> R) eps yl yu xl xu A B C D : yl <= yu -> xl <= xu ->
  (forall x, xl <= x <= xu -> between_ends (fun y => f y x) yl yu) -> (forall y, y = yl \/ y = yu -> between_ends (f y) xl xu) ->
  Rabs (A - f yl xl) <= eps -> Rabs (B - f yl xu) <= eps -> Rabs (C - f yu xl) <= eps -> Rabs (D - f yu xu) <= eps ->
  (forall r s, yl <= r <= yu -> xl <= s <= xu -> min4 A B C D - eps <= f r s <= max4 A B C D + eps)
  /\ (exists r s, yl <= r <= yu /\ xl <= s <= xu /\ Rabs (f r s - min4 A B C D) <= eps) /\ (exists r s, yl <= r <= yu /\ xl <= s <= xu /\ Rabs (f r s - max4 A B C D) <= eps).
Proof.
  intros Oy Ox My Mx HA HB HC HD.
  assert (Q : Rabs (f yl xl - A) <= eps /\ Rabs (f yl xu - B) <= eps /\ Rabs (f yu xl - C) <= eps /\ Rabs (f yu xu - D) <= eps) by (now rewrite !(Rabs_minus_sym (f _ _))).
  split; [|split].
  - intros r s Hr Hs. pose proof (corner_bounds f yl yu xl xu Oy Ox My Mx r s Hr Hs). apply Rabs_le_inv in HA, HB, HC, HD. unfold min4, max4, Rmin, Rmax in *. repeat destruct Rle_dec; lra.
  - destruct Q as (Q1 & Q2 & Q3 & Q4). unfold min4, Rmin. repeat destruct Rle_dec; corner.
  - destruct Q as (Q1 & Q2 & Q3 & Q4). unfold max4, Rmax. repeat destruct Rle_dec; corner.
Qed.

Section Machine.
  Variables (prec emax : Z) (Hp : Prec_gt_0 prec) (He : Prec_lt_emax prec emax).
  Existing Instance Hp.
  Existing Instance He.
  Notation F := (binary_float prec emax).
  Notation FN := (float_num prec emax Hp He).
  Variable L : libm F.
  Notation M := (float_math prec emax Hp He L).
  Implicit Types (X Y : ivl FN).
  Local Instance fexp_ok : Valid_exp (SpecFloat.fexp prec emax) := fexp_correct prec emax Hp.

  Lemma dbg_fin dbg X : finite_arg (Iv X) -> expects_debug dbg (assigned X) = Ret tt.
  Proof. intros H. pose proof (aproper_assigned (denotes_ord (float_denotes prec emax Hp He)) (Iv X) (finite_proper prec emax Hp He (Iv X) H)) as A. change (assigned X = true) in A. rewrite A. now destruct dbg. Qed.
  Lemma ends_in X : finite_arg (Iv X) -> within (Iv X) (B2R (lo X)) /\ within (Iv X) (B2R (hi X)).
  Proof. intros (_ & _ & O). unfold within. cbn in *. lra. Qed.
  Lemma near_sorted f eps g X : finite_arg (Iv X) -> monotone f (B2R (lo X)) (B2R (hi X)) -> @fn_within prec emax Hp He eps f g (Iv X) ->
    near_range eps f (@from_unordered_bounds FN (g (lo X)) (g (hi X))) (Iv X) /\ near_range eps f (@from_unordered_bounds FN (g (hi X)) (g (lo X))) (Iv X).
  Proof.
    intros FX Mo W. destruct (ends_in X FX) as [I1 I2]. destruct FX as (F1 & F2 & O). cbn [alower aupper] in *.
    destruct (W (lo X) F1 I1) as [G1 E1], (W (hi X) F2 I2) as [G2 E2]. destruct (ends_near f eps _ _ _ _ O Mo E1 E2) as (N1 & N2 & N3).
    rewrite !(fub_real prec emax Hp He) by assumption. split.
    - destruct (omin_real prec emax Hp He _ _ G1 G2) as [A1 A2], (omax_real prec emax Hp He _ _ G1 G2) as [B1 B2].
      eexists. split; [reflexivity|]. split; [split; [exact A1|split; [exact B1|]]; cbn [alower aupper lo hi]; setoid_rewrite A2; setoid_rewrite B2; unfold Rmin, Rmax; repeat destruct Rle_dec; lra|].
      cbn [lo hi]. setoid_rewrite A2. setoid_rewrite B2. split; [exact N1|]. split; [exact N2|exact N3].
    - destruct (omin_real prec emax Hp He _ _ G2 G1) as [A1 A2], (omax_real prec emax Hp He _ _ G2 G1) as [B1 B2]. rewrite Rmin_comm in A2. rewrite Rmax_comm in B2.
      eexists. split; [reflexivity|]. split; [split; [exact A1|split; [exact B1|]]; cbn [alower aupper lo hi]; setoid_rewrite A2; setoid_rewrite B2; unfold Rmin, Rmax; repeat destruct Rle_dec; lra|].
      cbn [lo hi]. setoid_rewrite A2. setoid_rewrite B2. split; [exact N1|]. split; [exact N2|exact N3].
  Qed.
  Lemma near_ordered f eps g X : finite_arg (Iv X) -> monotone f (B2R (lo X)) (B2R (hi X)) -> @fn_within prec emax Hp He eps f g (Iv X) -> B2R (g (lo X) : F) <= B2R (g (hi X) : F) ->
    near_range eps f (@mk FN (g (lo X)) (g (hi X))) (Iv X).
  Proof.
    intros FX Mo W Og. destruct (ends_in X FX) as [I1 I2]. destruct FX as (F1 & F2 & O). cbn [alower aupper] in *.
    destruct (W (lo X) F1 I1) as [G1 E1], (W (hi X) F2 I2) as [G2 E2]. destruct (ends_near f eps _ _ _ _ O Mo E1 E2) as (N1 & N2 & N3). rewrite Rmin_left in * by exact Og. rewrite Rmax_right in * by exact Og.
    rewrite (mk_real prec emax Hp He) by assumption. eexists. split; [reflexivity|]. split; [split; [exact G1|split; [exact G2|exact Og]]|]. split; [exact N1|]. split; [exact N2|exact N3].
  Qed.
  Lemma increasing_ends (P : FN -> Prop) (g : FN -> FN) X : finite_arg (Iv X) -> increasing P g -> P (lo X) -> P (hi X) -> is_finite (g (lo X) : F) = true -> is_finite (g (hi X) : F) = true ->
    B2R (g (lo X) : F) <= B2R (g (hi X) : F).
  Proof. intros FX I P1 P2 G1 G2. apply (le_B2R prec emax Hp He); auto. apply I; auto. exact (finite_proper prec emax Hp He (Iv X) FX). Qed.
  Variables (eps : R) (dbg : bool).
  Lemma zero_fin : is_finite (@n_zero FN : F) = true /\ B2R (@n_zero FN : F) = 0.
  Proof. split; reflexivity. Qed.
  Lemma dbg_true b : b = true -> expects_debug dbg b = Ret tt.
  Proof. intros ->. now destruct dbg. Qed.
  Lemma nonneg_real (v : FN) : is_finite (v : F) = true -> 0 <= B2R (v : F) -> o_le n_zero v = true.
  Proof. intros Fv H. apply (le_B2R prec emax Hp He); [reflexivity|exact Fv|exact H]. Qed.
  Lemma cbrt_near X : finite_arg (Iv X) -> @fn_within prec emax Hp He eps Rcbrt (l_cbrt L) (Iv X) -> near_range eps Rcbrt (icbrt M dbg X) (Iv X).
  Proof.
    intros FX W. unfold icbrt. rewrite (dbg_fin dbg X FX). apply (near_sorted Rcbrt eps (l_cbrt L) X FX); [|exact W]. left. intros. now apply Rcbrt_inc.
  Qed.
  Lemma log_near X : finite_arg (Iv X) -> 0 < B2R (lo X : F) -> increasing nonneg (m_log M) -> @fn_within prec emax Hp He eps ln (l_log L) (Iv X) -> near_range eps ln (ilog M dbg X) (Iv X).
  Proof.
    intros FX Pos I W. destruct (ends_in X FX) as [I1 I2]. pose proof FX as (F1 & F2 & O). cbn [alower aupper] in *.
    assert (N1 : o_le n_zero (lo X) = true) by (apply nonneg_real; [exact F1|lra]). assert (N2 : o_le n_zero (hi X) = true) by (apply nonneg_real; [exact F2|lra]).
    destruct (W (lo X) F1 I1) as [G1 _], (W (hi X) F2 I2) as [G2 _].
    unfold ilog, slog. rewrite (dbg_fin dbg X FX), !dbg_true by assumption. apply (near_ordered ln eps (l_log L) X FX); [|exact W|].
    - left. intros x y Hx [Hxy|Hxy] Hy; [left; apply ln_increasing; lra|subst; lra].
    - exact (increasing_ends nonneg (m_log M) X FX I N1 N2 G1 G2).
  Qed.
  Lemma exp_near X : finite_arg (Iv X) -> increasing anywhere (m_exp M) -> @fn_within prec emax Hp He eps exp (l_exp L) (Iv X) -> near_range eps exp (iexp M dbg X) (Iv X).
  Proof.
    intros FX I W. destruct (ends_in X FX) as [I1 I2]. pose proof FX as (F1 & F2 & O). cbn [alower aupper] in *.
    destruct (W (lo X) F1 I1) as [G1 _], (W (hi X) F2 I2) as [G2 _].
    unfold iexp. rewrite (dbg_fin dbg X FX). apply (near_ordered exp eps (l_exp L) X FX); [|exact W|].
    - left. intros x y Hx [Hxy|Hxy] Hy; [left; now apply exp_increasing|subst; lra].
    - exact (increasing_ends anywhere (m_exp M) X FX I Logic.I Logic.I G1 G2).
  Qed.
  Lemma one_range (v : FN) : is_finite (v : F) = true -> -1 <= B2R (v : F) <= 1 -> (o_le n_mone v && o_le v n_one)%bool = true.
  Proof.
    intros Fv Hv. destruct (one_real prec emax Hp He) as [O1 O2], (mone_real prec emax Hp He) as [M1 M2].
    apply andb_true_iff. split; apply (le_B2R prec emax Hp He); auto; [setoid_rewrite M2|setoid_rewrite O2]; lra.
  Qed.
  Lemma asin_near X : finite_arg (Iv X) -> -1 <= B2R (lo X : F) -> B2R (hi X : F) <= 1 -> @fn_within prec emax Hp He eps asin (l_asin L) (Iv X) -> near_range eps asin (iasin M dbg X) (Iv X).
  Proof.
    intros FX H1 H2 W. pose proof FX as (F1 & F2 & O). cbn [alower aupper] in *. unfold iasin, sasin. rewrite (dbg_fin dbg X FX), !dbg_true by (apply one_range; auto; lra).
    apply (near_sorted asin eps (l_asin L) X FX); [|exact W]. left. intros. apply asin_le; lra.
  Qed.
  Lemma acos_near X : finite_arg (Iv X) -> -1 <= B2R (lo X : F) -> B2R (hi X : F) <= 1 -> @fn_within prec emax Hp He eps acos (l_acos L) (Iv X) -> near_range eps acos (iacos M dbg X) (Iv X).
  Proof.
    intros FX H1 H2 W. pose proof FX as (F1 & F2 & O). cbn [alower aupper] in *. unfold iacos, sacos. rewrite (dbg_fin dbg X FX), !dbg_true by (apply one_range; auto; lra).
    apply (near_sorted acos eps (l_acos L) X FX); [|exact W]. right. intros. apply acos_le; lra.
  Qed.
  Lemma atan_near X : finite_arg (Iv X) -> @fn_within prec emax Hp He eps atan (l_atan L) (Iv X) -> near_range eps atan (iatan M dbg X) (Iv X).
  Proof.
    intros FX W. unfold iatan. rewrite (dbg_fin dbg X FX). apply (near_sorted atan eps (l_atan L) X FX); [|exact W]. left. intros. now apply atan_le.
  Qed.

  (** ** atan2 *)
  Lemma eq_zero (v : FN) : is_finite (v : F) = true -> (o_eq v n_zero = true <-> B2R (v : F) = 0).
  Proof. intros Fv. cbn. rewrite Beqb_correct by (assumption || reflexivity). cbn. destruct (Req_bool_spec (B2R v) 0); split; congruence. Qed.
  Lemma zero_lt (v : FN) : is_finite (v : F) = true -> (o_lt n_zero v = true <-> 0 < B2R (v : F)).
  Proof. intros Fv. cbn. rewrite Bltb_correct by (assumption || reflexivity). cbn. destruct (Rlt_bool_spec 0 (B2R v)); split; (congruence || lra). Qed.
  Lemma acontains_zero (y : arg FN) : finite_arg y -> (acontains y n_zero = true <-> within y 0).
  Proof.
    intros (F1 & F2 & O). unfold within. destruct y as [v|Y]; cbn [acontains alower aupper] in *.
    - rewrite (eq_zero v F1). lra.
    - rewrite contains_iff. unfold el. rewrite (le_B2R prec emax Hp He (lo Y) n_zero F1 eq_refl), (le_B2R prec emax Hp He n_zero (hi Y) eq_refl F2). reflexivity.
  Qed.
  Lemma satan2_ret (v w : FN) : is_finite (v : F) = true -> is_finite (w : F) = true -> B2R (v : F) <> 0 \/ 0 < B2R (w : F) -> satan2 M dbg v w = Ret (l_atan2 L v w).
  Proof.
    intros Fv Fw H. unfold satan2. rewrite dbg_true; [reflexivity|]. apply orb_true_iff. destruct H as [H|H]; [left|right; now apply zero_lt].
    apply negb_true_iff. destruct (o_eq v n_zero) eqn:E; [apply (eq_zero v Fv) in E; contradiction|reflexivity].
  Qed.
  Lemma hull4_real (a b c d : FN) : is_finite (a : F) = true -> is_finite (b : F) = true -> is_finite (c : F) = true -> is_finite (d : F) = true ->
    exists Z : ivl FN, hull4 a b c d = Ret Z /\ finite_arg (Iv Z) /\ B2R (lo Z : F) = min4 (B2R (a : F)) (B2R (b : F)) (B2R (c : F)) (B2R (d : F)) /\ B2R (hi Z : F) = max4 (B2R (a : F)) (B2R (b : F)) (B2R (c : F)) (B2R (d : F)).
  Proof.
    intros Fa Fb Fc Fd. destruct (omin_real prec emax Hp He a b Fa Fb) as [A1 A2], (omin_real prec emax Hp He c d Fc Fd) as [B1 B2], (omax_real prec emax Hp He a b Fa Fb) as [C1 C2], (omax_real prec emax Hp He c d Fc Fd) as [D1 D2].
    destruct (omin_real prec emax Hp He _ _ A1 B1) as [G1 G2], (omax_real prec emax Hp He _ _ C1 D1) as [K1 K2]. rewrite A2, B2 in G2. rewrite C2, D2 in K2.
    assert (O : B2R (omin (omin a b) (omin c d) : F) <= B2R (omax (omax a b) (omax c d) : F)) by (setoid_rewrite G2; setoid_rewrite K2; unfold Rmin, Rmax; repeat destruct Rle_dec; lra).
    unfold hull4. rewrite (mk_real prec emax Hp He _ _ G1 K1 O). eexists. split; [reflexivity|]. split; [exact (conj G1 (conj K1 O))|]. split; [exact G2|exact K2].
  Qed.
  Lemma hull2_real (a b : FN) : is_finite (a : F) = true -> is_finite (b : F) = true ->
    exists Z : ivl FN, hull2 a b = Ret Z /\ finite_arg (Iv Z) /\ B2R (lo Z : F) = Rmin (B2R (a : F)) (B2R (b : F)) /\ B2R (hi Z : F) = Rmax (B2R (a : F)) (B2R (b : F)).
  Proof.
    intros Fa Fb. destruct (omin_real prec emax Hp He a b Fa Fb) as [A1 A2], (omax_real prec emax Hp He a b Fa Fb) as [B1 B2].
    assert (O : B2R (omin a b : F) <= B2R (omax a b : F)) by (setoid_rewrite A2; setoid_rewrite B2; unfold Rmin, Rmax; repeat destruct Rle_dec; lra).
    unfold hull2. rewrite (mk_real prec emax Hp He _ _ A1 B1 O). eexists. split; [reflexivity|]. split; [exact (conj A1 (conj B1 O))|]. split; [exact A2|exact B2].
  Qed.
  Lemma min4_2 a b : min4 a b a b = Rmin a b /\ max4 a b a b = Rmax a b /\ min4 a a b b = Rmin a b /\ max4 a a b b = Rmax a b.
  Proof. unfold min4, max4, Rmin, Rmax. repeat destruct Rle_dec; lra. Qed.
  Variables (y x : arg FN).
  Hypotheses (Fy : finite_arg y) (Fx : finite_arg x).
  Lemma dbg_args : expects_debug dbg (aassigned y && aassigned x) = Ret tt.
  Proof.
    apply dbg_true. apply andb_true_iff. split; apply (aproper_assigned (denotes_ord (float_denotes prec emax Hp He))); now apply (finite_proper prec emax Hp He).
  Qed.
  Lemma atan2_cut r s : within y r -> within x s -> r = 0 -> s <= 0 -> exists Z, iatan2 M dbg y x = Ret Z /\ nan_ivl Z.
  Proof.
    intros Hr Hs -> Ss. unfold iatan2. rewrite dbg_args. cbn [bind].
    replace (o_le (alower x) n_zero) with true by (symmetry; apply (le_B2R prec emax Hp He); [apply Fx|reflexivity|change (B2R (alower x : F) <= 0); unfold within in Hs; lra]).
    replace (acontains y n_zero) with true by (symmetry; now apply acontains_zero). eexists. split; [reflexivity|]. split; reflexivity.
  Qed.
  Lemma atan2_near : (forall r s, within y r -> within x s -> r <> 0 \/ 0 < s) -> @fn2_within prec emax Hp He eps Ratan2 (l_atan2 L) y x ->
    near_range2 eps Ratan2 (iatan2 M dbg y x) y x.
  Proof.
    intros NC W. pose proof Fy as (Fyl & Fyu & Oy). pose proof Fx as (Fxl & Fxu & Ox).
    assert (Wyl : within y (B2R (alower y : F))) by (unfold within; lra). assert (Wyu : within y (B2R (aupper y : F))) by (unfold within; lra).
    assert (Wxl : within x (B2R (alower x : F))) by (unfold within; lra). assert (Wxu : within x (B2R (aupper x : F))) by (unfold within; lra).
    destruct (W _ _ Fyl Fxl Wyl Wxl) as [A1 A2], (W _ _ Fyl Fxu Wyl Wxu) as [B1 B2], (W _ _ Fyu Fxl Wyu Wxl) as [C1 C2], (W _ _ Fyu Fxu Wyu Wxu) as [D1 D2].
    assert (Cases : 0 < B2R (alower x : F) \/ 0 < B2R (alower y : F) \/ B2R (aupper y : F) < 0).
    { destruct (Rlt_or_le 0 (B2R (alower x : F))) as [|K1]; auto. destruct (Rlt_or_le 0 (B2R (alower y : F))) as [|K2]; auto. destruct (Rlt_or_le (B2R (aupper y : F)) 0) as [|K3]; auto.
      exfalso. destruct (NC 0 (B2R (alower x : F)) (conj K2 K3) Wxl); lra. }
    assert (My : forall w, B2R (alower x : F) <= w <= B2R (aupper x : F) -> between_ends (fun v => Ratan2 v w) (B2R (alower y : F)) (B2R (aupper y : F))).
    { intros w Hw. apply monotone_between. destruct Cases as [K|[K|K]]; [apply right_mono_y; lra|now apply upper_mono_y|now apply lower_mono_y]. }
    assert (Mx : forall v, v = B2R (alower y : F) \/ v = B2R (aupper y : F) -> between_ends (Ratan2 v) (B2R (alower x : F)) (B2R (aupper x : F))).
    { intros v Hv. apply monotone_between. destruct Cases as [K|[K|K]]; [now apply right_mono_x|apply upper_mono_x; lra|apply lower_mono_x; lra]. }
    destruct (corners_near Ratan2 eps _ _ _ _ _ _ _ _ Oy Ox My Mx A2 B2 C2 D2) as (N1 & N2 & N3).
    assert (V : exists Z : ivl FN, iatan2 M dbg y x = Ret Z /\ finite_arg (Iv Z)
      /\ B2R (lo Z : F) = min4 (B2R (l_atan2 L (alower y) (alower x))) (B2R (l_atan2 L (alower y) (aupper x))) (B2R (l_atan2 L (aupper y) (alower x))) (B2R (l_atan2 L (aupper y) (aupper x)))
      /\ B2R (hi Z : F) = max4 (B2R (l_atan2 L (alower y) (alower x))) (B2R (l_atan2 L (alower y) (aupper x))) (B2R (l_atan2 L (aupper y) (alower x))) (B2R (l_atan2 L (aupper y) (aupper x)))).
    { unfold iatan2. rewrite dbg_args. cbn [bind].
      replace (o_le (alower x) n_zero && acontains y n_zero)%bool with false.
      2:{ symmetry. apply andb_false_iff. destruct (o_le (alower x) n_zero) eqn:E; [|now left]. right. destruct (acontains y n_zero) eqn:Ey; [|reflexivity].
          apply (acontains_zero y Fy) in Ey. apply (le_B2R prec emax Hp He _ n_zero Fxl eq_refl) in E. change (B2R (alower x : F) <= 0) in E. destruct (NC _ _ Ey Wxl); lra. }
      assert (S : forall v w : FN, is_finite (v : F) = true -> is_finite (w : F) = true -> within y (B2R (v : F)) -> within x (B2R (w : F)) -> satan2 M dbg v w = Ret (l_atan2 L v w)) by (intros; apply satan2_ret; auto).
      destruct y as [v|Y].
      - cbn [alower aupper] in *. rewrite !S by assumption. cbn [bind]. destruct (hull2_real _ _ A1 B1) as (Z & E & FZ & E1 & E2). exists Z. split; [exact E|]. split; [exact FZ|].
        rewrite (proj1 (min4_2 _ _)), (proj1 (proj2 (min4_2 _ _))). auto.
      - destruct x as [w|X]; cbn [alower aupper] in *; rewrite !S by assumption; cbn [bind].
        + destruct (hull2_real _ _ A1 C1) as (Z & E & FZ & E1 & E2). exists Z. split; [exact E|]. split; [exact FZ|].
          rewrite (proj1 (proj2 (proj2 (min4_2 _ _)))), (proj2 (proj2 (proj2 (min4_2 _ _)))). auto.
        + exact (hull4_real _ _ _ _ A1 B1 C1 D1). }
    destruct V as (Z & E & FZ & E1 & E2). exists Z. split; [exact E|]. split; [exact FZ|]. rewrite E1, E2. split; [exact N1|]. split; [exact N2|exact N3].
  Qed.
End Machine.

(** ** A correctly rounded C library satisfies the hypotheses *)
Section Lib.
  Context (prec emax : Z) (Hp : Prec_gt_0 prec) (He : Prec_lt_emax prec emax).
  Notation F := (binary_float prec emax).
  Notation FN := (float_num prec emax Hp He).
  Notation fexp := (SpecFloat.fexp prec emax).
  Notation rnd := (round radix2 fexp ZnearestE).
  Notation u := (bpow radix2 (- prec)).
  Notation NF := (nearest_float prec emax Hp He).
  Notation NL := (nearest_libm prec emax Hp He).
  Local Instance fexp_ok2 : Valid_exp fexp := fexp_correct prec emax Hp.

  Lemma nearest_within q B : Rabs q <= B -> B <= bpow radix2 (emax - 1) -> is_finite (NF q) = true /\ Rabs (B2R (NF q) - q) <= u * (B + 1).
  Proof.
    intros H HB. destruct (nearest_float_spec prec emax Hp He q) as [K _]. change (rn prec emax q) with (rnd q) in K. destruct K as [K1 K2].
    - eapply Rle_lt_trans; [apply (abs_round_le_generic radix2 fexp ZnearestE q (bpow radix2 (emax - 1)))|apply bpow_lt; lia]; [|lra].
      apply generic_format_bpow. pose proof Hp. pose proof He. unfold Prec_gt_0, Prec_lt_emax, SpecFloat.fexp, SpecFloat.emin in *. lia.
    - split; [exact K1|]. rewrite K2. eapply Rle_trans; [apply (rnd_error prec emax Hp He)|]. apply Rmult_le_compat_l; [apply bpow_ge_0|]. lra.
  Qed.
  Lemma nearest_fn (f : R -> R) (g : F -> F) B (x : arg FN) : B <= bpow radix2 (emax - 1) -> (forall v, is_finite v = true -> within x (B2R (v : F)) -> g v = NF (f (B2R v))) ->
    (forall r, within x r -> Rabs (f r) <= B) -> @fn_within prec emax Hp He (u * (B + 1)) f g x.
  Proof. intros HB G Bf v Fv Wv. rewrite (G v Fv Wv). apply nearest_within; auto. Qed.
  Lemma nearest_fn2 (f : R -> R -> R) (g : F -> F -> F) B (y x : arg FN) : B <= bpow radix2 (emax - 1) -> (forall v w, g v w = NF (f (B2R v) (B2R w))) ->
    (forall r s, within y r -> within x s -> Rabs (f r s) <= B) -> @fn2_within prec emax Hp He (u * (B + 1)) f g y x.
  Proof. intros HB G Bf v w Fv Fw Wv Ww. rewrite (G v w). apply nearest_within; auto. Qed.
  Lemma log_is_nearest v : is_finite v = true -> 0 < B2R v -> l_log NL v = NF (ln (B2R v)).
  Proof. intros Fv Pv. destruct v as [s|[|]| |[|] m e B]; try discriminate Fv; cbn in Pv; [lra|pose proof (finite_neg m e); lra|]. reflexivity. Qed.
  Lemma exp_is_nearest v : is_finite v = true -> l_exp NL v = NF (exp (B2R v)).
  Proof. intros Fv. destruct v; try discriminate Fv; reflexivity. Qed.
End Lib.

Lemma lib_example (NL := nearest_libm 53 1024 prec_gt_0_53 prec_lt_emax_64) (X := Ivl (f64 1 (-1)) (f64 1 0) : ivl float64) (W := Ivl (f64 (-2) 0) (f64 1 0) : ivl float64) (eps := bpow radix2 (-53) * (4 + 1)) :
  finite_arg (Iv X) /\ finite_arg (Iv W) /\ 0 < B2R (lo X) /\ -1 <= B2R (lo X) /\ B2R (hi X) <= 1
  /\ @increasing float64 nonneg (m_log (float_math 53 1024 prec_gt_0_53 prec_lt_emax_64 NL)) /\ @increasing float64 anywhere (m_exp (float_math 53 1024 prec_gt_0_53 prec_lt_emax_64 NL))
  /\ @fn_within 53 1024 prec_gt_0_53 prec_lt_emax_64 eps Rcbrt (l_cbrt NL) (Iv X) /\ @fn_within 53 1024 prec_gt_0_53 prec_lt_emax_64 eps ln (l_log NL) (Iv X)
  /\ @fn_within 53 1024 prec_gt_0_53 prec_lt_emax_64 eps exp (l_exp NL) (Iv X) /\ @fn_within 53 1024 prec_gt_0_53 prec_lt_emax_64 eps asin (l_asin NL) (Iv X)
  /\ @fn_within 53 1024 prec_gt_0_53 prec_lt_emax_64 eps acos (l_acos NL) (Iv X) /\ @fn_within 53 1024 prec_gt_0_53 prec_lt_emax_64 eps atan (l_atan NL) (Iv X)
  /\ @fn2_within 53 1024 prec_gt_0_53 prec_lt_emax_64 eps Ratan2 (l_atan2 NL) (Iv X) (Iv W) /\ (forall r s, within (Iv X) r -> within (Iv W) s -> r <> 0 \/ 0 < s)
  /\ within (Iv W) 0.
Proof.
  assert (E1 : B2R (f64 1 (-1)) = / 2) by (unfold B2R, F2R; cbn; lra). assert (E2 : B2R (f64 1 0) = 1) by (unfold B2R, F2R; cbn; lra). assert (E3 : B2R (f64 (-2) 0) = -2) by (unfold B2R, F2R; cbn; lra).
  assert (WX : forall r, within (Iv X) r <-> / 2 <= r <= 1) by (intros r; unfold within, X; cbn [alower aupper lo hi]; setoid_rewrite E1; setoid_rewrite E2; reflexivity).
  assert (WW : forall r, within (Iv W) r <-> -2 <= r <= 1) by (intros r; unfold within, W; cbn [alower aupper lo hi]; setoid_rewrite E3; setoid_rewrite E2; reflexivity).
  assert (FX : finite_arg (Iv X)) by (split; [reflexivity|split; [reflexivity|]]; cbn [alower aupper lo hi X]; setoid_rewrite E1; setoid_rewrite E2; lra).
  assert (FW : finite_arg (Iv W)) by (split; [reflexivity|split; [reflexivity|]]; cbn [alower aupper lo hi W]; setoid_rewrite E3; setoid_rewrite E2; lra).
  assert (B4 : 4 <= bpow radix2 (1024 - 1)) by (apply Rle_trans with (bpow radix2 2); [cbn; lra|apply bpow_le; lia]).
  pose proof ln2_bounds as L2. pose proof pi_bounds as P. pose proof exp_le_3 as E31.
  split; [exact FX|]. split; [exact FW|]. cbn [lo hi X]. change (B2R (f64 1 (-1) : float64)) with (B2R (f64 1 (-1))). change (B2R (f64 1 0 : float64)) with (B2R (f64 1 0)). rewrite E1, E2.
  do 3 (split; [lra|]). split; [apply nearest_log_mono|]. split; [apply nearest_exp_mono|].
  split. { apply nearest_fn; [exact B4|reflexivity|]. intros r Hr. apply WX in Hr. pose proof (Rcbrt_cube r) as C. apply Rabs_le.
    split; destruct (Rle_or_lt (-4) (Rcbrt r)) as [A|A], (Rle_or_lt (Rcbrt r) 4) as [A'|A']; auto; exfalso; set (c := Rcbrt r) in *.
    - apply cube_lt in A. lra. - apply cube_lt in A. lra. - apply cube_lt in A'. lra. - apply cube_lt in A'. lra. }
  split. { apply nearest_fn; [exact B4|intros v Fv Wv; apply WX in Wv; apply log_is_nearest; [exact Fv|lra]|]. intros r Hr. apply WX in Hr. apply Rabs_le.
    pose proof (ln_le' (/ 2) r ltac:(lra) ltac:(lra)) as A1. pose proof (ln_le' r 1 ltac:(lra) ltac:(lra)) as A2. rewrite ln_1 in A2. rewrite ln_Rinv in A1 by lra. lra. }
  split. { apply nearest_fn; [exact B4|intros v Fv Wv; now apply exp_is_nearest|]. intros r Hr. apply WX in Hr. pose proof (exp_pos r). pose proof (exp_le r 1 ltac:(lra)). apply Rabs_le. lra. }
  split. { apply nearest_fn; [exact B4|reflexivity|]. intros r Hr. apply Rabs_le. pose proof (asin_bound r). lra. }
  split. { apply nearest_fn; [exact B4|reflexivity|]. intros r Hr. apply Rabs_le. pose proof (acos_bound r). lra. }
  split. { apply nearest_fn; [exact B4|reflexivity|]. intros r Hr. apply Rabs_le. pose proof (atan_bound r). lra. }
  split. { apply nearest_fn2; [exact B4|reflexivity|]. intros r s Hr Hs. apply WX in Hr. rewrite Ratan2_upper by lra. apply Rabs_le. pose proof (atan_bound (s / r)). lra. }
  split; [intros r s Hr _; apply WX in Hr; lra|apply WW; lra].
Qed.
