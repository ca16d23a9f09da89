(** atan2 of intervals in exact real arithmetic (interval.hpp 1185-1216). *)
From Coq Require Import Reals ZArith Bool Lra Lia.
From Flocq Require Import Core.
From Verif Require Import Outcome SetModel Spec Num NumLaws IntervalModel IvlSpec IvlProofs IntNum XReal RealNum
  MathModel RealMath MathSpec MathProofs MonoProofs TrigProofs.
Open Scope R_scope.

(** ** Functions monotone in each argument take their extreme values in the corners of a box *)
Definition monotone (g : R -> R) a b : Prop :=
  (forall x y, a <= x -> x <= y -> y <= b -> g x <= g y) \/ (forall x y, a <= x -> x <= y -> y <= b -> g y <= g x).
Definition between_ends (g : R -> R) a b : Prop := forall t, a <= t <= b -> Rmin (g a) (g b) <= g t <= Rmax (g a) (g b).
Lemma monotone_between g a b : monotone g a b -> between_ends g a b.
Proof.
  intros H t Ht. pose proof (Rmin_l (g a) (g b)). pose proof (Rmin_r (g a) (g b)). pose proof (Rmax_l (g a) (g b)). pose proof (Rmax_r (g a) (g b)).
  destruct H as [H|H]; pose proof (H a t ltac:(lra) ltac:(lra) ltac:(lra)); pose proof (H t b ltac:(lra) ltac:(lra) ltac:(lra)); lra.
Qed.
Definition min4 a b c d := Rmin (Rmin a b) (Rmin c d).
Definition max4 a b c d := Rmax (Rmax a b) (Rmax c d).
Lemma corner_bounds (f : R -> R -> R) yl yu xl xu : yl <= yu -> xl <= xu ->
  (forall x, xl <= x <= xu -> between_ends (fun y => f y x) yl yu) -> (forall y, y = yl \/ y = yu -> between_ends (f y) xl xu) ->
  forall y x, yl <= y <= yu -> xl <= x <= xu ->
    min4 (f yl xl) (f yl xu) (f yu xl) (f yu xu) <= f y x <= max4 (f yl xl) (f yl xu) (f yu xl) (f yu xu).
Proof.
  intros Hy Hx Bx By y x Iy Ix. pose proof (Bx x Ix y Iy) as B. cbv beta in B.
  pose proof (By yl (or_introl eq_refl) x Ix) as B1. pose proof (By yu (or_intror eq_refl) x Ix) as B2.
  unfold min4, max4, Rmin, Rmax in *. repeat destruct Rle_dec; lra.
Qed.

(** The case distinction on scalar and interval operands used by atan2. *)
Definition corner_hull {N : num} (g : N -> N -> outcome N) (y x : arg N) : outcome (ivl N) :=
  match y, x with
  | Sc v, _ => v1 <- g v (alower x) ;; v2 <- g v (aupper x) ;; hull2 v1 v2
  | Iv Y, Sc w => v1 <- g (lo Y) w ;; v2 <- g (hi Y) w ;; hull2 v1 v2
  | Iv Y, Iv X =>
      v1 <- g (lo Y) (lo X) ;; v2 <- g (lo Y) (hi X) ;;
      v3 <- g (hi Y) (lo X) ;; v4 <- g (hi Y) (hi X) ;; hull4 v1 v2 v3 v4
  end.
Definition bounds (a : arg real_num) (l u : R) : Prop := alower a = XFin l /\ aupper a = XFin u /\ l <= u.
Lemma real_ael a l u (v : real_num) : bounds a l u -> (ael a v <-> exists r, v = XFin r /\ l <= r <= u).
Proof. intros (El & Eu & _). unfold ael. rewrite El, Eu. apply (real_el l u v). Qed.
Lemma bounded_arg (a : arg real_num) : aproper a -> finite (alower a) -> finite (aupper a) -> exists l u, bounds a l u.
Proof.
  unfold aproper, finite. rewrite !(infinite_phi real_denotes), !(nan_not_ok RO), !(ok_phi real_denotes). unfold bounds.
  destruct (alower a) as [| |l|], (aupper a) as [| |u|]; intros H [H1 H2] [H3 H4]; try discriminate H; try (exfalso; apply H2; auto; fail); try (exfalso; apply H4; auto; fail).
  exists l, u. repeat split; auto. now apply real_le.
Qed.
Lemma real_hull2 a b : hull2 (XFin a : real_num) (XFin b) = Ret (RI (Rmin a b) (Rmax a b)).
Proof. apply real_fub. Qed.
Lemma real_hull4 a b c d : hull4 (XFin a : real_num) (XFin b) (XFin c) (XFin d) = Ret (RI (min4 a b c d) (max4 a b c d)).
Proof.
  unfold hull4. rewrite !real_omin, !real_omax. apply real_mk. unfold min4, max4, Rmin, Rmax. repeat destruct Rle_dec; lra.
Qed.
Lemma corner_value (g : real_num -> real_num -> outcome real_num) f y x yl yu xl xu : bounds y yl yu -> bounds x xl xu ->
  (forall v w, yl <= v <= yu -> xl <= w <= xu -> g (XFin v) (XFin w) = Ret (XFin (f v w))) ->
  corner_hull g y x = Ret (RI (min4 (f yl xl) (f yl xu) (f yu xl) (f yu xu)) (max4 (f yl xl) (f yl xu) (f yu xl) (f yu xu))).
Proof.
  intros (E1 & E2 & Ly) (E3 & E4 & Lx) Hg. unfold corner_hull. destruct y as [v|Y]; cbn [alower aupper] in E1, E2.
  - rewrite E1 in E2. injection E2 as ->. rewrite E1, E3, E4, !Hg by lra. cbn [bind]. rewrite real_hull2. unfold min4, max4, Rmin, Rmax. repeat destruct Rle_dec; try lra; reflexivity.
  - destruct x as [w|X]; cbn [alower aupper] in E3, E4.
    + rewrite E3 in E4. injection E4 as ->. rewrite E1, E2, E3, !Hg by lra. cbn [bind]. rewrite real_hull2. unfold min4, max4, Rmin, Rmax. repeat destruct Rle_dec; try lra; reflexivity.
    + rewrite E1, E2, E3, E4, !Hg by lra. cbn [bind]. apply real_hull4.
Qed.
Lemma corner_is_hull (g : real_num -> real_num -> outcome real_num) f y x yl yu xl xu : bounds y yl yu -> bounds x xl xu ->
  (forall v w, yl <= v <= yu -> xl <= w <= xu -> g (XFin v) (XFin w) = Ret (XFin (f v w))) ->
  (forall w, xl <= w <= xu -> between_ends (fun v => f v w) yl yu) -> (forall v, v = yl \/ v = yu -> between_ends (f v) xl xu) ->
  exists Z, corner_hull g y x = Ret Z /\ is_hull (img2 g y x) Z.
Proof.
  intros By Bx Hg My Mx. rewrite (corner_value g f y x yl yu xl xu By Bx Hg). eexists. split; [reflexivity|].
  assert (C : forall v w, v = yl \/ v = yu -> w = xl \/ w = xu -> img2 g y x (XFin (f v w))).
  { pose proof (proj2 (proj2 By)) as Ly. pose proof (proj2 (proj2 Bx)) as Lx. intros v w Hv Hw. exists (XFin v), (XFin w).
    split; [apply (real_ael y yl yu _ By); exists v; split; [reflexivity|lra]|]. split; [apply (real_ael x xl xu _ Bx); exists w; split; [reflexivity|lra]|].
    apply Hg; lra. }
  split; [|split].
  - intros z (v & w & Hv & Hw & E). apply (real_ael y yl yu _ By) in Hv as (r & -> & Hr). apply (real_ael x xl xu _ Bx) in Hw as (s & -> & Hs).
    rewrite Hg in E by auto. injection E as <-. apply real_el. eexists. split; [reflexivity|].
    destruct By as (_ & _ & Ly), Bx as (_ & _ & Lx). apply corner_bounds; auto.
  - exists (XFin (min4 (f yl xl) (f yl xu) (f yu xl) (f yu xu))). split; [|now apply real_eq].
    unfold min4, Rmin. repeat destruct Rle_dec; apply C; auto.
  - exists (XFin (max4 (f yl xl) (f yl xu) (f yu xl) (f yu xu))). split; [|now apply real_eq].
    unfold max4, Rmax. repeat destruct Rle_dec; apply C; auto.
Qed.

(** ** The angle of a point *)
Lemma Ratan2_right y x : 0 < x -> Ratan2 y x = atan (y / x).
Proof. intros H. unfold Ratan2. now rewrite Rcompare_Gt. Qed.
Lemma atan_flip t : 0 < t -> atan t = PI / 2 - atan (/ t).
Proof. intros H. rewrite atan_inv by auto. ring. Qed.
Lemma Ratan2_upper y x : 0 < y -> Ratan2 y x = PI / 2 - atan (x / y).
Proof.
  intros H. unfold Ratan2. destruct (Rcompare_spec x 0) as [K|K|K].
  - rewrite Rle_bool_true by lra. replace (y / x) with (- (/ ((- x) / y))) by (field; split; lra). rewrite atan_opp, atan_inv.
    + replace (- x / y) with (- (x / y)) by (field; lra). rewrite atan_opp. lra.
    + apply Rmult_lt_0_compat; [lra|]. now apply Rinv_0_lt_compat.
  - subst. rewrite Rcompare_Gt by auto. unfold Rdiv. rewrite Rmult_0_l, atan_0. ring.
  - replace (y / x) with (/ (x / y)) by (field; lra). apply atan_inv. apply Rmult_lt_0_compat; [lra|]. now apply Rinv_0_lt_compat.
Qed.
Lemma Ratan2_lower y x : y < 0 -> Ratan2 y x = - (PI / 2) - atan (x / y).
Proof.
  intros H. assert (S : Ratan2 y x = - Ratan2 (- y) x).
  { unfold Ratan2. destruct (Rcompare_spec x 0) as [K|K|K].
    - rewrite Rle_bool_false, Rle_bool_true by lra. replace (- y / x) with (- (y / x)) by (field; lra). rewrite atan_opp. ring.
    - rewrite Rcompare_Lt, Rcompare_Gt by lra. ring.
    - replace (- y / x) with (- (y / x)) by (field; lra). rewrite atan_opp. ring. }
  rewrite S, Ratan2_upper by lra. replace (x / - y) with (- (x / y)) by (field; lra). rewrite atan_opp. ring.
Qed.
(** the defining property *)
Lemma hypot_pos y x : y <> 0 \/ x <> 0 -> 0 < x * x + y * y.
Proof. intros [H|H]; pose proof (Rle_0_sqr x); pose proof (Rle_0_sqr y); [pose proof (Rsqr_pos_lt y H)|pose proof (Rsqr_pos_lt x H)]; unfold Rsqr in *; lra. Qed.
Lemma sqrt_quot a b : 0 < b -> sqrt (1 + (a / b)²) = sqrt (b * b + a * a) / b.
Proof.
  intros H. replace (1 + (a / b)²) with ((b * b + a * a) / (b * b)) by (unfold Rsqr; field; lra). rewrite sqrt_div_alt by nra. now rewrite sqrt_square by lra.
Qed.
Lemma Ratan2_spec y x : y <> 0 \/ x <> 0 -> - PI < Ratan2 y x <= PI /\
  sqrt (x * x + y * y) * cos (Ratan2 y x) = x /\ sqrt (x * x + y * y) * sin (Ratan2 y x) = y.
Proof.
  intros H. pose proof (hypot_pos y x H) as P. pose proof (sqrt_lt_R0 _ P) as Q. pose proof PI_RGT_0 as Pi.
  destruct (Rtotal_order x 0) as [K|[K|K]].
  1,2: destruct (Rtotal_order y 0) as [J|[J|J]].
  - (* x < 0, y < 0 *) rewrite Ratan2_lower by auto. pose proof (atan_bound (x / y)) as B.
    assert (A0 : 0 < atan (x / y)) by (rewrite <- atan_0; apply atan_increasing; replace (x / y) with ((- x) / (- y)) by (field; lra); apply Rmult_lt_0_compat; [lra|apply Rinv_0_lt_compat; lra]).
    split; [lra|]. replace (- (PI / 2) - atan (x / y)) with (- (PI / 2 + atan (x / y))) by ring. rewrite cos_neg, sin_neg.
    replace (cos (PI / 2 + atan (x / y))) with (- sin (atan (x / y))) by (rewrite sin_cos; ring). replace (sin (PI / 2 + atan (x / y))) with (cos (atan (x / y))) by (rewrite cos_sin; ring).
    rewrite cos_atan, sin_atan. replace (x / y) with ((- x) / (- y)) by (field; lra). rewrite sqrt_quot by lra. replace (- y * - y + - x * - x) with (x * x + y * y) by ring. split; field; lra.
  - (* x < 0, y = 0 *) subst y. unfold Ratan2. rewrite Rcompare_Lt, Rle_bool_true by lra. unfold Rdiv. rewrite Rmult_0_l, atan_0, Rplus_0_l.
    split; [lra|]. rewrite cos_PI, sin_PI. replace (x * x + 0 * 0) with ((- x) * (- x)) by ring. rewrite sqrt_square by lra. split; ring.
  - (* x < 0 < y *) rewrite Ratan2_upper by auto. pose proof (atan_bound (x / y)) as B. split; [lra|]. rewrite cos_shift, sin_shift.
    rewrite cos_atan, sin_atan, sqrt_quot by lra. replace (y * y + x * x) with (x * x + y * y) by ring. split; field; lra.
  - subst x. rewrite Ratan2_lower by auto. unfold Rdiv. rewrite Rmult_0_l, atan_0. split; [lra|]. replace (- (PI * / 2) - 0) with (- (PI / 2)) by field.
    rewrite cos_neg, sin_neg, cos_PI2, sin_PI2. replace (0 * 0 + y * y) with ((- y) * (- y)) by ring. rewrite sqrt_square by lra. split; ring.
  - subst. exfalso. tauto.
  - subst x. rewrite Ratan2_upper by auto. unfold Rdiv. rewrite Rmult_0_l, atan_0. split; [lra|]. replace (PI * / 2 - 0) with (PI / 2) by field.
    rewrite cos_PI2, sin_PI2. replace (0 * 0 + y * y) with (y * y) by ring. rewrite sqrt_square by lra. split; ring.
  - rewrite Ratan2_right by auto. pose proof (atan_bound (y / x)) as B. split; [lra|]. rewrite cos_atan, sin_atan, sqrt_quot by auto. split; field; lra.
Qed.

(** monotonicity in each argument *)
Lemma div_dec c x y : 0 <= c -> 0 < x -> x <= y -> c / y <= c / x.
Proof. intros. now apply Rdiv_le_inv. Qed.
Lemma div_inc_neg c x y : c <= 0 -> 0 < x -> x <= y -> c / x <= c / y.
Proof.
  intros Hc Hx Hy. pose proof (div_dec (- c) x y ltac:(lra) Hx Hy) as K.
  replace (- c / y) with (- (c / y)) in K by (field; lra). replace (- c / x) with (- (c / x)) in K by (field; lra). lra.
Qed.
Lemma right_mono_y x a b : 0 < x -> monotone (fun y => Ratan2 y x) a b.
Proof. intros H. left. intros u v _ K _. rewrite !Ratan2_right by auto. apply atan_le. now apply Rdiv_le_pos. Qed.
Lemma right_mono_x y a b : 0 < a -> monotone (Ratan2 y) a b.
Proof.
  intros H. destruct (Rle_or_lt 0 y) as [K|K].
  - right. intros u v Hu Hv _. rewrite !Ratan2_right by lra. apply atan_le. apply div_dec; lra.
  - left. intros u v Hu Hv _. rewrite !Ratan2_right by lra. apply atan_le. apply div_inc_neg; lra.
Qed.
Lemma upper_mono_x y a b : 0 < y -> monotone (Ratan2 y) a b.
Proof. intros H. right. intros u v _ K _. rewrite !Ratan2_upper by auto. pose proof (atan_le (u / y) (v / y) ltac:(now apply Rdiv_le_pos)). lra. Qed.
Lemma upper_mono_y x a b : 0 < a -> monotone (fun y => Ratan2 y x) a b.
Proof.
  intros H. destruct (Rle_or_lt 0 x) as [K|K].
  - left. intros u v Hu Hv _. rewrite !Ratan2_upper by lra. pose proof (atan_le (x / v) (x / u) ltac:(apply div_dec; lra)). lra.
  - right. intros u v Hu Hv _. rewrite !Ratan2_upper by lra. pose proof (atan_le (x / u) (x / v) ltac:(apply div_inc_neg; lra)). lra.
Qed.
Lemma div_opp2 a b : b <> 0 -> a / b = - a / - b. Proof. intros. field. auto. Qed.
Lemma lower_mono_x y a b : y < 0 -> monotone (Ratan2 y) a b.
Proof.
  intros H. left. intros u v _ K _. rewrite !Ratan2_lower by auto.
  pose proof (atan_le (v / y) (u / y)) as A. rewrite (div_opp2 v y), (div_opp2 u y) in * by lra.
  pose proof (A ltac:(apply Rdiv_le_pos; lra)). lra.
Qed.
Lemma lower_mono_y x a b : b < 0 -> monotone (fun y => Ratan2 y x) a b.
Proof.
  intros H. destruct (Rle_or_lt 0 x) as [K|K].
  - left. intros u v Hu Hv Hb. rewrite !Ratan2_lower by lra. rewrite (div_opp2 x u), (div_opp2 x v) by lra.
    pose proof (atan_le (- x / - v) (- x / - u) ltac:(apply div_inc_neg; lra)). lra.
  - right. intros u v Hu Hv Hb. rewrite !Ratan2_lower by lra. rewrite (div_opp2 x u), (div_opp2 x v) by lra.
    pose proof (atan_le (- x / - u) (- x / - v) ltac:(apply div_dec; lra)). lra.
Qed.

(** ** atan2 of intervals *)
(** the box contains a point with y = 0 and x <= 0 *)
Definition touches_cut (y x : arg real_num) : Prop := exists v w : real_num, ael y v /\ ael x w /\ o_eq v n_zero = true /\ o_le w n_zero = true.
Lemma satan2_ret dbg v w : (v <> 0 \/ 0 < w) -> @satan2 real_num real_math dbg (XFin v) (XFin w) = Ret (XFin (Ratan2 v w)).
Proof.
  intros H. unfold satan2. replace (negb (@o_eq real_num (XFin v) n_zero) || @o_lt real_num n_zero (XFin w)) with true; [now destruct dbg|].
  destruct (@o_eq real_num (XFin v) n_zero) eqn:E; [|reflexivity]. apply real_eq in E. symmetry. apply real_lt. tauto.
Qed.
Lemma acontains_real (a : arg real_num) l u r : bounds a l u -> (acontains a (XFin r : real_num) = true <-> l <= r <= u).
Proof.
  intros (E1 & E2 & L). destruct a as [v|X]; cbn [acontains].
  - cbn in E1, E2. rewrite E1 in E2. injection E2 as ->. rewrite E1. rewrite real_eq. lra.
  - rewrite contains_iff. change (el X (XFin r : real_num)) with (ael (Iv X) (XFin r : real_num)). rewrite (real_ael (Iv X) l u _ (conj E1 (conj E2 L))).
    split; [intros (s & Es & Hs); injection Es as ->; auto|intros H; eauto].
Qed.
Lemma aassigned_bounds (a : arg real_num) l u : bounds a l u -> aassigned a = true.
Proof. intros (E1 & E2 & L). apply (aproper_assigned RO). unfold aproper. rewrite E1, E2. now apply real_le. Qed.
Lemma real_atan2 dbg (y x : arg real_num) yl yu xl xu : bounds y yl yu -> bounds x xl xu ->
  (touches_cut y x -> exists Z, iatan2 real_math dbg y x = Ret Z /\ nan_ivl Z) /\
  (~ touches_cut y x -> exists Z, iatan2 real_math dbg y x = Ret Z /\ is_hull (img2 (satan2 real_math dbg) y x) Z).
Proof.
  intros By Bx. pose proof By as (E1 & E2 & Ly). pose proof Bx as (E3 & E4 & Lx).
  unfold iatan2. rewrite (aassigned_bounds _ _ _ By), (aassigned_bounds _ _ _ Bx). cbn [andb].
  replace (expects_debug dbg true) with (Ret tt) by (now destruct dbg). cbn [bind].
  replace (o_le (alower x) n_zero && acontains y n_zero) with (@o_le real_num (XFin xl) (XFin 0) && acontains y (XFin 0 : real_num)) by (now rewrite E3).
  assert (T : touches_cut y x <-> xl <= 0 /\ yl <= 0 <= yu).
  { split.
    - intros (v & w & Hv & Hw & Ev & Ew). apply (real_ael _ _ _ _ By) in Hv as (r & -> & Hr). apply (real_ael _ _ _ _ Bx) in Hw as (s & -> & Hs).
      apply real_eq in Ev. apply real_le in Ew. lra.
    - intros (A & B). exists (XFin 0), (XFin xl). split; [apply (real_ael _ _ _ _ By); exists 0; auto|]. split; [apply (real_ael _ _ _ _ Bx); exists xl; split; [reflexivity|lra]|].
      split; [now apply real_eq|now apply real_le]. }
  destruct (@o_le real_num (XFin xl) (XFin 0) && acontains y (XFin 0 : real_num)) eqn:C.
  - apply andb_true_iff in C as [C1 C2]. apply real_le in C1. apply (acontains_real y yl yu) in C2; [|exact By].
    split; [intros _|intros H; exfalso; apply H, T; auto]. eexists. split; [reflexivity|]. split; reflexivity.
  - assert (NC : ~ (xl <= 0 /\ yl <= 0 <= yu)).
    { intros [A B]. apply andb_false_iff in C as [C|C]; [apply real_le in A; change (@o_le real_num (XFin xl) (XFin 0)) with (Rle_bool xl 0) in *; congruence|].
      apply (acontains_real y yl yu 0 By) in B. congruence. }
    split; [intros H; exfalso; apply NC, T; auto|intros _].
    change (exists Z, corner_hull (satan2 real_math dbg) y x = Ret Z /\ is_hull (img2 (satan2 real_math dbg) y x) Z).
    assert (Cases : 0 < xl \/ 0 < yl \/ yu < 0) by lra.
    apply (corner_is_hull _ Ratan2 y x yl yu xl xu By Bx).
    + intros v w Hv Hw. apply satan2_ret. lra.
    + intros w Hw. apply monotone_between. destruct Cases as [K|[K|K]]; [apply right_mono_y; lra|now apply upper_mono_y|now apply lower_mono_y].
    + intros v Hv. apply monotone_between. destruct Cases as [K|[K|K]]; [now apply right_mono_x|apply upper_mono_x; lra|apply lower_mono_x; lra].
Qed.
Lemma touches_ext (y y' x x' : arg real_num) : (forall v, ael y v <-> ael y' v) -> (forall v, ael x v <-> ael x' v) -> touches_cut y x -> touches_cut y' x'.
Proof. intros Hy Hx (v & w & Hv & Hw & E). exists v, w. split; [now apply Hy|]. split; [now apply Hx|exact E]. Qed.
Lemma touches_dec (y x : arg real_num) yl yu xl xu : bounds y yl yu -> bounds x xl xu -> touches_cut y x \/ ~ touches_cut y x.
Proof.
  intros By Bx. assert (T : touches_cut y x <-> xl <= 0 /\ yl <= 0 <= yu).
  { split.
    - intros (v & w & Hv & Hw & Ev & Ew). apply (real_ael _ _ _ _ By) in Hv as (r & -> & Hr). apply (real_ael _ _ _ _ Bx) in Hw as (s & -> & Hs).
      apply real_eq in Ev. apply real_le in Ew. lra.
    - intros (A & B). pose proof (proj2 (proj2 Bx)) as Lx. exists (XFin 0), (XFin xl). split; [apply (real_ael _ _ _ _ By); exists 0; auto|]. split; [apply (real_ael _ _ _ _ Bx); exists xl; split; [reflexivity|lra]|].
      split; [now apply real_eq|now apply real_le]. }
  destruct (Rle_or_lt xl 0), (Rle_or_lt yl 0), (Rle_or_lt 0 yu); [left; apply T; lra|right; intros Q; apply T in Q; lra..].
Qed.
(** operands with the same elements (a scalar and the degenerate interval) give results that agree *)
Lemma real_atan2_ext dbg dbg' (y y' x x' : arg real_num) yl yu xl xu : bounds y yl yu -> bounds x xl xu -> bounds y' yl yu -> bounds x' xl xu ->
  exists Z Z', iatan2 real_math dbg y x = Ret Z /\ iatan2 real_math dbg' y' x' = Ret Z' /\ agree Z Z'.
Proof.
  intros By Bx By' Bx'. assert (Hy : forall v, ael y v <-> ael y' v) by (intros v; now rewrite (real_ael _ _ _ _ By), (real_ael _ _ _ _ By')).
  assert (Hx : forall v, ael x v <-> ael x' v) by (intros v; now rewrite (real_ael _ _ _ _ Bx), (real_ael _ _ _ _ Bx')).
  destruct (real_atan2 dbg y x _ _ _ _ By Bx) as [A B], (real_atan2 dbg' y' x' _ _ _ _ By' Bx') as [A' B'].
  destruct (touches_dec y x _ _ _ _ By Bx) as [T|T].
  - destruct (A T) as (Z & E & H), (A' (touches_ext _ _ _ _ Hy Hx T)) as (Z' & E' & H'). exists Z, Z'. repeat split; auto. left. auto.
  - assert (T' : ~ touches_cut y' x') by (intros Q; apply T; revert Q; apply touches_ext; intros v; symmetry; auto).
    destruct (B T) as (Z & E & H), (B' T') as (Z' & E' & H'). exists Z, Z'. split; [auto|]. split; [auto|]. right.
    assert (H2 : is_hull (img2 (satan2 real_math dbg) y x) Z').
    { eapply is_hull_ext; [|exact H']. intros v. unfold img2. split.
      - intros (a & b & Ha & Hb & Eab). exists a, b. apply Hy in Ha. apply Hx in Hb. split; [exact Ha|]. split; [exact Hb|].
        revert Eab. unfold satan2. apply (real_ael _ _ _ _ By) in Ha as (r & -> & Hr). apply (real_ael _ _ _ _ Bx) in Hb as (s & -> & Hs).
        assert (G : r <> 0 \/ 0 < s). { destruct (Req_dec r 0) as [-> |]; auto. right. destruct (Rlt_or_le 0 s); auto. exfalso. apply T. exists (XFin 0), (XFin s).
          split; [apply (real_ael _ _ _ _ By); eauto|]. split; [apply (real_ael _ _ _ _ Bx); eauto|]. split; [now apply real_eq|now apply real_le]. }
        fold (@satan2 real_num real_math dbg (XFin r) (XFin s)). fold (@satan2 real_num real_math dbg' (XFin r) (XFin s)). rewrite !satan2_ret by exact G. auto.
      - intros (a & b & Ha & Hb & Eab). exists a, b. apply Hy in Ha. apply Hx in Hb. split; [exact Ha|]. split; [exact Hb|].
        revert Eab. unfold satan2. apply (real_ael _ _ _ _ By') in Ha as (r & -> & Hr). apply (real_ael _ _ _ _ Bx') in Hb as (s & -> & Hs).
        assert (G : r <> 0 \/ 0 < s). { destruct (Req_dec r 0) as [-> |]; auto. right. destruct (Rlt_or_le 0 s); auto. exfalso. apply T. exists (XFin 0), (XFin s).
          split; [apply (real_ael _ _ _ _ By); eauto|]. split; [apply (real_ael _ _ _ _ Bx); eauto|]. split; [now apply real_eq|now apply real_le]. }
        fold (@satan2 real_num real_math dbg (XFin r) (XFin s)). fold (@satan2 real_num real_math dbg' (XFin r) (XFin s)). rewrite !satan2_ret by exact G. auto. }
    split; [apply (is_hull_proper RO _ _ H)|]. split; [apply (is_hull_proper RO _ _ H')|]. apply (is_hull_unique RO _ _ _ H H2).
Qed.
