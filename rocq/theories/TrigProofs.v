(** cos, sin, tan of intervals in exact real arithmetic (interval.hpp 1092-1154). *)
From Coq Require Import Reals ZArith Bool Lra Lia.
From Flocq Require Import Core.
From Verif Require Import Outcome SetModel Spec Num NumLaws IntervalModel IvlSpec IvlProofs IntNum XReal RealNum
  MathModel RealMath MathSpec MathProofs WrapProofs.
Open Scope R_scope.

(** ** Intervals of real numbers *)
Notation RI a b := (@Ivl real_num (XFin a) (XFin b)).
Notation RO := (denotes_ord real_denotes).
Lemma real_le a b : @o_le real_num (XFin a) (XFin b) = true <-> a <= b.
Proof. cbn. destruct (Rle_bool_spec a b); split; auto; try discriminate; lra. Qed.
Lemma real_lt a b : @o_lt real_num (XFin a) (XFin b) = true <-> a < b.
Proof. cbn. unfold xlt. cbn. destruct (Rle_bool_spec a b), (Rle_bool_spec b a); cbn; split; auto; try discriminate; lra. Qed.
Lemma real_eq a b : @o_eq real_num (XFin a) (XFin b) = true <-> a = b.
Proof. cbn. unfold xeq. cbn. destruct (Rle_bool_spec a b), (Rle_bool_spec b a); cbn; split; auto; try discriminate; lra. Qed.
Lemma real_el a b (v : real_num) : el (RI a b) v <-> exists r, v = XFin r /\ a <= r <= b.
Proof.
  unfold el. cbn [lo hi]. split.
  - destruct v as [| |r|]; cbn; try (intros [? ?]; discriminate). intros [H1 H2]. exists r. split; auto.
    destruct (Rle_bool_spec a r), (Rle_bool_spec r b); try discriminate. auto.
  - intros (r & -> & H1 & H2). split; apply real_le; auto.
Qed.
Lemma real_proper a b : proper (RI a b) <-> a <= b.
Proof. apply real_le. Qed.
Lemma real_mk a b : a <= b -> mk (XFin a : real_num) (XFin b : real_num) = Ret (RI a b).
Proof. intros H. apply (mk_proper RO). now apply real_le. Qed.
Lemma real_omin a b : omin (XFin a : real_num) (XFin b : real_num) = XFin (Rmin a b).
Proof.
  unfold omin. destruct (o_lt (XFin b : real_num) (XFin a : real_num)) eqn:E.
  - apply real_lt in E. now rewrite Rmin_right by lra.
  - rewrite Rmin_left; auto. destruct (Rle_or_lt a b); auto. apply real_lt in H. congruence.
Qed.
Lemma real_omax a b : omax (XFin a : real_num) (XFin b : real_num) = XFin (Rmax a b).
Proof.
  unfold omax. destruct (o_lt (XFin a : real_num) (XFin b : real_num)) eqn:E.
  - apply real_lt in E. now rewrite Rmax_right by lra.
  - rewrite Rmax_left; auto. destruct (Rle_or_lt b a); auto. apply real_lt in H. congruence.
Qed.
Lemma real_fub a b : from_unordered_bounds (XFin a : real_num) (XFin b : real_num) = Ret (RI (Rmin a b) (Rmax a b)).
Proof.
  unfold from_unordered_bounds. rewrite real_omin, real_omax. apply real_mk. eapply Rle_trans; [apply Rmin_l|apply Rmax_l].
Qed.

(** [L, U] is the range of [f] on [a, b] *)
Definition range (f : R -> R) a b L U : Prop :=
  (forall x, a <= x <= b -> L <= f x <= U) /\ (exists x, a <= x <= b /\ f x = L) /\ (exists x, a <= x <= b /\ f x = U).
Lemma range_hull (f : R -> R) (g : real_num -> outcome real_num) a b L U : (forall r, a <= r <= b -> g (XFin r) = Ret (XFin (f r))) ->
  range f a b L U -> is_hull (img1 g (RI a b)) (RI L U).
Proof.
  intros Hg (H & (x & Hx & Ex) & (y & Hy & Ey)). split; [|split].
  - intros v (u & Hu & Ev). apply real_el in Hu as (r & -> & Hr). rewrite Hg in Ev by auto. injection Ev as <-. apply real_el. eexists. split; [reflexivity|]. auto.
  - exists (XFin (f x)). split; [exists (XFin x); split; [apply real_el; eauto|auto]|]. apply real_eq. auto.
  - exists (XFin (f y)). split; [exists (XFin y); split; [apply real_el; eauto|auto]|]. apply real_eq. auto.
Qed.
Lemma range_le f a b L U : range f a b L U -> L <= U.
Proof. intros (H & (x & Hx & Ex) & _). specialize (H x Hx). lra. Qed.
Lemma range_inc f a b : a <= b -> (forall x y, a <= x -> x <= y -> y <= b -> f x <= f y) -> range f a b (f a) (f b).
Proof. intros H M. split; [|split]; [intros x Hx; split; apply M; lra|exists a; split; auto; lra|exists b; split; auto; lra]. Qed.
Lemma range_dec f a b : a <= b -> (forall x y, a <= x -> x <= y -> y <= b -> f y <= f x) -> range f a b (f b) (f a).
Proof. intros H M. split; [|split]; [intros x Hx; split; apply M; lra|exists b; split; auto; lra|exists a; split; auto; lra]. Qed.
Lemma range_join f a m b L U L' U' : a <= m <= b -> range f a m L U -> range f m b L' U' -> range f a b (Rmin L L') (Rmax U U').
Proof.
  intros Hm (H & (x & Hx & Ex) & (y & Hy & Ey)) (H' & (x' & Hx' & Ex') & (y' & Hy' & Ey')). split; [|split].
  - intros z Hz. pose proof (Rmin_l L L'). pose proof (Rmin_r L L'). pose proof (Rmax_l U U'). pose proof (Rmax_r U U').
    destruct (Rle_or_lt z m) as [K|K]; [specialize (H z)|specialize (H' z)]; lra.
  - unfold Rmin. destruct Rle_dec; [exists x|exists x']; split; auto; lra.
  - unfold Rmax. destruct Rle_dec; [exists y'|exists y]; split; auto; lra.
Qed.
Lemma range_sub f a b c d L U : range f c d L U -> a <= c -> d <= b -> (forall x, L <= f x <= U) -> range f a b L U.
Proof. intros (_ & (x & Hx & Ex) & (y & Hy & Ey)) Ha Hb H. split; [auto|split; [exists x|exists y]; split; auto; lra]. Qed.
Lemma range_shift f a b t L U : (forall x, f (x + t) = f x) -> range f (a + t) (b + t) L U -> range f a b L U.
Proof.
  intros P (H & (x & Hx & Ex) & (y & Hy & Ey)). split; [|split].
  - intros z Hz. rewrite <- P. apply H. lra.
  - exists (x - t). split; [lra|]. rewrite <- P. now replace (x - t + t) with x by ring.
  - exists (y - t). split; [lra|]. rewrite <- P. now replace (y - t + t) with y by ring.
Qed.
Lemma range_ext f a b L U L' U' : L = L' -> U = U' -> range f a b L U -> range f a b L' U'.
Proof. now intros -> ->. Qed.

(** ** cos *)
Lemma cos_period_Z x k : cos (x + IZR k * (2 * PI)) = cos x.
Proof.
  destruct (Z_le_gt_dec 0 k) as [H|H].
  - rewrite <- (Z2Nat.id k H), <- INR_IZR_INZ. replace (x + INR (Z.to_nat k) * (2 * PI)) with (x + 2 * INR (Z.to_nat k) * PI) by ring. apply cos_period.
  - rewrite <- (cos_period (x + IZR k * (2 * PI)) (Z.to_nat (- k))). f_equal. rewrite INR_IZR_INZ, Z2Nat.id by lia. rewrite opp_IZR. ring.
Qed.
Lemma cos_dec_0_pi x y : 0 <= x -> x <= y -> y <= PI -> cos y <= cos x.
Proof. intros. apply cos_decr_1; lra. Qed.
Lemma cos_inc_npi_0 x y : - PI <= x -> x <= y -> y <= 0 -> cos x <= cos y.
Proof. intros. rewrite <- (cos_neg x), <- (cos_neg y). apply cos_decr_1; lra. Qed.
Lemma cos_inc_pi_2pi x y : PI <= x -> x <= y -> y <= 2 * PI -> cos x <= cos y.
Proof. intros. apply cos_incr_1; lra. Qed.

Section Cos.
  Variables (l h : R) (Hl : - PI <= l < PI) (Hh : l <= h).
  Lemma range_cos1 : l <= 0 -> h <= 0 -> range cos l h (cos l) (cos h).
  Proof. intros. apply range_inc; auto. intros. apply cos_inc_npi_0; lra. Qed.
  Lemma range_cos2 : l <= 0 -> 0 <= h -> h <= PI -> range cos l h (Rmin (cos l) (cos h)) 1.
  Proof.
    intros. assert (A : range cos l 0 (cos l) (cos 0)) by (apply range_inc; auto; intros; apply cos_inc_npi_0; lra).
    assert (B : range cos 0 h (cos h) (cos 0)) by (apply range_dec; auto; intros; apply cos_dec_0_pi; lra).
    pose proof (range_join cos l 0 h _ _ _ _ (conj H H0) A B) as C. rewrite cos_0 in C. rewrite Rmax_left in C by lra. exact C.
  Qed.
  Lemma range_cos_full0 : range cos 0 PI (-1) 1.
  Proof. pose proof PI_RGT_0. rewrite <- cos_0, <- cos_PI. apply range_dec; [lra|]. intros. apply cos_dec_0_pi; lra. Qed.
  Lemma range_cos_full1 : range cos PI (2 * PI) (-1) 1.
  Proof. pose proof PI_RGT_0. rewrite <- cos_2PI, <- cos_PI. apply range_inc; [lra|]. intros. apply cos_inc_pi_2pi; lra. Qed.
  Lemma range_cos3 : l <= 0 -> PI <= h -> range cos l h (-1) 1.
  Proof. intros. apply (range_sub cos l h 0 PI _ _ range_cos_full0); auto. intros. apply COS_bound. Qed.
  Lemma range_cos4 : 0 <= l -> h <= PI -> range cos l h (cos h) (cos l).
  Proof. intros. apply range_dec; auto. intros. apply cos_dec_0_pi; lra. Qed.
  Lemma range_cos5 : 0 <= l -> PI <= h -> h <= 2 * PI -> range cos l h (-1) (Rmax (cos l) (cos h)).
  Proof.
    intros. assert (A : range cos l PI (cos PI) (cos l)) by (apply range_dec; [lra|]; intros; apply cos_dec_0_pi; lra).
    assert (B : range cos PI h (cos PI) (cos h)) by (apply range_inc; auto; intros; apply cos_inc_pi_2pi; lra).
    pose proof (range_join cos l PI h _ _ _ _ (conj (Rlt_le _ _ (proj2 Hl)) H0) A B) as C. rewrite cos_PI in C. rewrite Rmin_left in C by lra. exact C.
  Qed.
  Lemma range_cos6 : 0 <= l -> 2 * PI <= h -> range cos l h (-1) 1.
  Proof. intros. apply (range_sub cos l h PI (2 * PI) _ _ range_cos_full1); try lra. intros. apply COS_bound. Qed.
End Cos.

Lemma real_le_dec a b : (@o_le real_num (XFin a) (XFin b) = true /\ a <= b) \/ (@o_le real_num (XFin a) (XFin b) = false /\ b < a).
Proof. cbn. destruct (Rle_bool_spec a b); auto. Qed.

Lemma real_cos_range dbg a b : a <= b -> exists L U, icos real_math dbg (RI a b) = Ret (RI L U) /\ range cos a b L U.
Proof.
  intros H. pose proof PI_RGT_0 as P. unfold icos. rewrite (dbg_assigned RO) by (now apply real_proper). cbn [bind lo hi].
  cbn [n_neg real_num bind xopp m_pi real_math]. rewrite real_wraparound by lra. cbn [bind n_sub n_add n_mul real_num m_of_Z real_math].
  set (l := Rwrap a (- PI) PI). destruct (Rwrap_spec a (- PI) PI ltac:(lra)) as [Hl [k Hk]]. fold l in Hl, Hk.
  unfold xsub. cbn [xadd xopp xmul]. set (h := b + (l + - a)). replace (IZR k * (PI - - PI)) with (IZR k * (2 * PI)) in Hk by ring.
  assert (Hh : l <= h) by (unfold h; lra). assert (Eh : h = b + IZR k * (2 * PI)) by (unfold h; rewrite Hk; ring).
  unfold scos. cbn [bind m_cos real_math xlift].
  assert (S : forall L U, range cos l h L U -> range cos a b L U) by (intros L U; rewrite Hk, Eh; apply range_shift; intros; apply cos_period_Z).
  change (@n_zero real_num) with (XFin 0). change (@n_one real_num) with (XFin 1). change (@n_mone real_num) with (XFin (-1)).
  destruct (real_le_dec l 0) as [[-> L0]|[-> L0]].
  - destruct (real_le_dec h 0) as [[-> H0]|[-> H0]].
    + pose proof (range_cos1 l h Hl Hh L0 H0) as A. rewrite real_fub. pose proof (range_le _ _ _ _ _ A). rewrite Rmin_left, Rmax_right by auto. eauto.
    + destruct (real_le_dec h PI) as [[-> H1]|[-> H1]].
      * pose proof (range_cos2 l h Hl L0 (Rlt_le _ _ H0) H1) as A. rewrite real_omin, real_mk by exact (range_le _ _ _ _ _ A). eauto.
      * pose proof (range_cos3 l h L0 (Rlt_le _ _ H1)) as A. rewrite real_mk by lra. eauto.
  - destruct (real_le_dec h PI) as [[-> H1]|[-> H1]].
    + pose proof (range_cos4 l h Hh (Rlt_le _ _ L0) H1) as A. rewrite real_fub. pose proof (range_le _ _ _ _ _ A). rewrite Rmin_left, Rmax_right by auto. eauto.
    + destruct (real_le_dec h (2 * PI)) as [[-> H2]|[-> H2]].
      * pose proof (range_cos5 l h Hl (Rlt_le _ _ L0) (Rlt_le _ _ H1) H2) as A. rewrite real_omax, real_mk by exact (range_le _ _ _ _ _ A). eauto.
      * pose proof (range_cos6 l h Hl (Rlt_le _ _ L0) (Rlt_le _ _ H2)) as A. rewrite real_mk by lra. eauto.
Qed.
Lemma real_cos_hull dbg a b : a <= b -> hull_of (scos real_math) (icos real_math dbg (RI a b)) (RI a b).
Proof. intros H. destruct (real_cos_range dbg a b H) as (L & U & E & R). exists (RI L U). split; [exact E|]. apply (range_hull cos); auto. Qed.
Lemma real_sin_hull dbg a b : a <= b -> hull_of (ssin real_math) (isin real_math dbg (RI a b)) (RI a b).
Proof.
  intros H. unfold hull_of, isin. cbn [n_div real_num bind m_pi m_of_Z real_math xdiv]. rewrite Req_bool_false by lra. cbn [bind].
  unfold isub, aassigned. rewrite (proper_assigned RO (RI a b)) by (now apply real_proper). cbn [andb].
  replace (expects_debug dbg true) with (Ret tt) by (now destruct dbg). cbn [bind alower aupper lo hi].
  cbn [n_float real_num andb is_ninf is_pinf o_eq real_ordty n_ord n_bot n_top].
  unfold is_ninf, is_pinf. cbn [n_float real_num o_eq real_ordty n_ord n_bot n_top xeq xle andb orb negb].
  cbn [n_sub real_num bind]. unfold xsub. cbn [xadd xopp]. rewrite real_mk by lra. cbn [bind].
  destruct (real_cos_range dbg (a + - (PI / 2)) (b + - (PI / 2)) ltac:(lra)) as (L & U & E & R). exists (RI L U). split; [exact E|].
  apply (range_hull sin); [reflexivity|]. destruct R as (R1 & (x & Hx & Ex) & (y & Hy & Ey)).
  assert (C : forall z, sin z = cos (z + - (PI / 2))) by (intros z; rewrite <- (cos_neg (z + _)), <- cos_shift; f_equal; ring).
  split; [|split].
  - intros z Hz. rewrite C. apply R1. lra.
  - exists (x + PI / 2). split; [lra|]. rewrite C. rewrite <- Ex. f_equal. ring.
  - exists (y + PI / 2). split; [lra|]. rewrite C. rewrite <- Ey. f_equal. ring.
Qed.

(** ** tan *)
Lemma tan_period_nat x n : cos x <> 0 -> cos (x + INR n * PI) <> 0 /\ tan (x + INR n * PI) = tan x.
Proof.
  intros H. induction n as [|n [I1 I2]].
  - cbn. replace (x + 0 * PI) with x by ring. auto.
  - rewrite S_INR. replace (x + (INR n + 1) * PI) with (x + INR n * PI + PI) by ring. unfold tan in *. rewrite neg_cos, neg_sin. split; [lra|].
    rewrite <- I2. field. exact I1.
Qed.
Lemma cos_period_pi x k : cos x <> 0 -> cos (x + IZR k * PI) <> 0.
Proof.
  intros H. destruct (Z_le_gt_dec 0 k) as [K|K].
  - rewrite <- (Z2Nat.id k K), <- INR_IZR_INZ. now apply tan_period_nat.
  - intros E.
    (* shift back *)
    assert (G : forall n y, cos y = 0 -> cos (y + INR n * PI) = 0).
    { induction n as [|n IH]; intros y Hy; [cbn; now replace (y + 0 * PI) with y by ring|]. rewrite S_INR.
      replace (y + (INR n + 1) * PI) with (y + INR n * PI + PI) by ring. rewrite neg_cos, IH by auto. ring. }
    apply H. pose proof (G (Z.to_nat (- k)) _ E) as Q. rewrite INR_IZR_INZ, Z2Nat.id in Q by lia. rewrite opp_IZR in Q.
    replace (x + IZR k * PI + - IZR k * PI) with x in Q by ring. exact Q.
Qed.
Lemma tan_period_Z x k : cos x <> 0 -> tan (x + IZR k * PI) = tan x.
Proof.
  intros H. destruct (Z_le_gt_dec 0 k) as [K|K].
  - rewrite <- (Z2Nat.id k K), <- INR_IZR_INZ. now apply tan_period_nat.
  - pose proof (cos_period_pi x k H) as H'. destruct (tan_period_nat (x + IZR k * PI) (Z.to_nat (- k)) H') as [_ E]. rewrite <- E.
    rewrite INR_IZR_INZ, Z2Nat.id by lia. rewrite opp_IZR. f_equal. ring.
Qed.
Lemma tan_le x y : - PI / 2 < x -> x <= y -> y < PI / 2 -> tan x <= tan y.
Proof. intros H [K| ->] L; [left; now apply tan_increasing|lra]. Qed.

Lemma itan_value dbg a b : a <= b -> exists k, let l := a + IZR k * PI in let h := b + IZR k * PI in
  - PI / 2 <= l < PI / 2 /\
  itan real_math dbg (RI a b) = if Rle_bool PI (b - a) then Ret (@Ivl real_num XNinf XPinf) else Ret (RI (Rmin (tan l) (tan h)) (Rmax (tan l) (tan h))).
Proof.
  intros H. pose proof PI_RGT_0 as P. unfold itan. rewrite (dbg_assigned RO) by (now apply real_proper). cbn [bind lo hi].
  cbn [n_neg n_div real_num bind xopp xdiv m_pi m_of_Z real_math]. rewrite !Req_bool_false by lra. cbn [bind].
  rewrite real_wraparound by lra. cbn [bind n_sub n_add real_num].
  destruct (Rwrap_spec a (- PI / 2) (PI / 2) ltac:(lra)) as [Hl [k Hk]]. replace (PI / 2 - - PI / 2) with PI in Hk by field.
  exists k. rewrite <- Hk. set (l := Rwrap a (- PI / 2) (PI / 2)) in *. split; [exact Hl|].
  unfold xsub. cbn [xadd xopp]. set (h := b + (l + - a)). replace (b + IZR k * PI) with h by (unfold h; rewrite Hk; ring).
  change (@o_le real_num (XFin PI) (XFin (h + - l))) with (Rle_bool PI (h + - l)). replace (h + - l) with (b - a) by (unfold h; ring).
  destruct (Rle_bool PI (b - a)).
  - apply (mk_proper RO). reflexivity.
  - unfold stan. cbn [bind m_tan real_math xlift]. apply real_fub.
Qed.
(** no pole in the interval *)
Lemma real_tan_hull dbg a b : a <= b -> b - a < PI -> (forall x, a <= x <= b -> cos x <> 0) -> hull_of (stan real_math) (itan real_math dbg (RI a b)) (RI a b).
Proof.
  intros H W Q. pose proof PI_RGT_0 as P. destruct (itan_value dbg a b H) as (k & Hl & E). cbv zeta in Hl, E. rewrite E, Rle_bool_false by auto.
  set (l := a + IZR k * PI) in *. set (h := b + IZR k * PI) in *.
  assert (Q' : forall x, l <= x <= h -> cos x <> 0).
  { intros x Hx. replace x with (x - IZR k * PI + IZR k * PI) by ring. apply cos_period_pi. apply Q. unfold l, h in Hx. lra. }
  assert (l <= h) by (unfold l, h; lra).
  assert (L : - PI / 2 < l).
  { destruct (proj1 Hl) as [|Eq]; auto. exfalso. apply (Q' l); [lra|]. rewrite <- Eq. replace (- PI / 2) with (- (PI / 2)) by field. rewrite cos_neg. apply cos_PI2. }
  assert (U : h < PI / 2).
  { destruct (Rlt_or_le h (PI / 2)) as [|K]; auto. exfalso. apply (Q' (PI / 2)); [lra|]. apply cos_PI2. }
  assert (R : range tan l h (tan l) (tan h)) by (apply range_inc; auto; intros; apply tan_le; lra).
  pose proof (range_le _ _ _ _ _ R). rewrite Rmin_left, Rmax_right by auto. eexists. split; [reflexivity|].
  apply (range_hull tan); [reflexivity|]. destruct R as (R1 & (x & Hx & Ex) & (y & Hy & Ey)). split; [|split].
  - intros z Hz. rewrite <- (tan_period_Z z k) by auto. apply R1. unfold l, h. lra.
  - exists (x - IZR k * PI). split; [unfold l, h in Hx; lra|]. rewrite <- Ex. rewrite <- (tan_period_Z (x - IZR k * PI) k) by (apply Q; unfold l, h in Hx; lra). f_equal. ring.
  - exists (y - IZR k * PI). split; [unfold l, h in Hy; lra|]. rewrite <- Ey. rewrite <- (tan_period_Z (y - IZR k * PI) k) by (apply Q; unfold l, h in Hy; lra). f_equal. ring.
Qed.
(** a full period *)
Lemma real_tan_wide dbg a b : PI <= b - a -> itan real_math dbg (RI a b) = Ret (@Ivl real_num XNinf XPinf).
Proof.
  intros H. pose proof PI_RGT_0. destruct (itan_value dbg a b ltac:(lra)) as (k & _ & E). cbv zeta in E. now rewrite E, Rle_bool_true.
Qed.
(** exactly the intervals for which the result contains all values *)
Lemma real_tan_iff dbg a b : a <= b ->
  ((exists Z, itan real_math dbg (RI a b) = Ret Z /\ forall x, a <= x <= b -> cos x <> 0 -> el Z (XFin (tan x) : real_num))
   <-> PI <= b - a \/ a = b \/ forall x, a <= x <= b -> cos x <> 0).
Proof.
  intros H. pose proof PI_RGT_0 as P. split.
  - intros (Z & EZ & IZ). destruct (Rle_or_lt PI (b - a)) as [W|W]; [now left|]. right. destruct H as [H|H]; [right|now left]. intros p Hp Cp.
    destruct (itan_value dbg a b ltac:(lra)) as (k & Hl & E). cbv zeta in Hl, E. rewrite E, Rle_bool_false in EZ by auto. injection EZ as <-. clear E.
    assert (K0 : forall x, cos x <> 0 -> cos (x - IZR k * PI) <> 0).
    { intros x Hx. replace (x - IZR k * PI) with (x + IZR (- k) * PI) by (rewrite opp_IZR; ring). now apply cos_period_pi. }
    set (l := a + IZR k * PI) in *. set (h := b + IZR k * PI) in *. set (p' := p + IZR k * PI).
    assert (IZ' : forall x, l <= x <= h -> cos x <> 0 -> Rmin (tan l) (tan h) <= tan x <= Rmax (tan l) (tan h)).
    { intros x Hx Cx. assert (Cy := K0 x Cx). destruct (proj1 (real_el _ _ _) (IZ (x - IZR k * PI) ltac:(unfold l, h in Hx; lra) Cy)) as (r & Er & Hr). injection Er as <-.
      rewrite <- (tan_period_Z _ k Cy) in Hr. replace (x - IZR k * PI + IZR k * PI) with x in Hr by ring. exact Hr. }
    assert (Cp' : cos p' = 0). { destruct (Req_dec (cos p') 0) as [|N]; auto. exfalso. apply (K0 p' N). rewrite <- Cp. f_equal. unfold p'. ring. }
    assert (Hp' : l <= p' <= h) by (unfold l, h, p'; lra). assert (Hh : l < h < l + PI) by (unfold l, h; lra).
    destruct (Req_dec l (- PI / 2)) as [El|Nl].
    + set (T := Rmin (tan l) (tan h) - 1). set (m := (l + Rmin h 0) / 2). set (x := Rmin (atan T) m).
      pose proof (atan_bound T). pose proof (Rmin_l h 0). pose proof (Rmin_r h 0). assert (l < Rmin h 0) by (apply Rmin_glb_lt; lra).
      pose proof (Rmin_l (atan T) m). pose proof (Rmin_r (atan T) m). assert (l < x) by (unfold x; apply Rmin_glb_lt; unfold m in *; lra). fold x in H4, H5.
      assert (Cx : 0 < cos x) by (apply cos_gt_0; unfold m in *; lra). destruct (IZ' x ltac:(unfold m in *; lra) ltac:(lra)) as [Q _].
      assert (tan x <= tan (atan T)) by (apply tan_le; lra). rewrite tan_atan in *. unfold T in *. lra.
    + assert (PH : PI / 2 <= h).
      { destruct (Rlt_or_le h (PI / 2)) as [L|]; auto. exfalso. assert (0 < cos p') by (apply cos_gt_0; lra). lra. }
      set (T := Rmax (tan l) (tan h) + 1). set (m := (l + PI / 2) / 2). set (x := Rmax (atan T) m).
      pose proof (atan_bound T). pose proof (Rmax_l (atan T) m). pose proof (Rmax_r (atan T) m). fold x in H1, H2.
      assert (x < PI / 2) by (unfold x; apply Rmax_lub_lt; unfold m in *; lra).
      assert (Cx : 0 < cos x) by (apply cos_gt_0; unfold m in *; lra). destruct (IZ' x ltac:(unfold m in *; lra) ltac:(lra)) as [_ Q].
      assert (tan (atan T) <= tan x) by (apply tan_le; unfold m in *; lra). rewrite tan_atan in *. unfold T in *. lra.
  - intros [W|[->|Q]].
    + eexists. split; [now apply real_tan_wide|]. intros x _ _. split; reflexivity.
    + destruct (itan_value dbg b b ltac:(lra)) as (k & Hl & E). cbv zeta in Hl, E. rewrite Rle_bool_false in E by lra. eexists. split; [exact E|].
      intros x Hx Cx. replace x with b in * by lra. rewrite tan_period_Z by auto. apply real_el. eexists. split; [reflexivity|]. rewrite Rmin_left, Rmax_left by lra. lra.
    + destruct (Rle_or_lt PI (b - a)) as [W|W]; [eexists; split; [now apply real_tan_wide|]; intros x _ _; split; reflexivity|].
      destruct (real_tan_hull dbg a b H W Q) as (Z & E & IH & _). exists Z. split; [exact E|]. intros x Hx _. apply IH. exists (XFin x). split; [apply real_el; eauto|reflexivity].
Qed.
(** an interval narrower than a period that contains a pole *)
Lemma real_tan_pole dbg : exists Z, itan real_math dbg (RI 0 (3 * PI / 4)) = Ret Z /\
  el (RI 0 (3 * PI / 4)) (XFin (PI / 4) : real_num) /\ cos (PI / 4) <> 0 /\ ~ el Z (XFin (tan (PI / 4)) : real_num).
Proof.
  pose proof PI_RGT_0 as P. destruct (itan_value dbg 0 (3 * PI / 4) ltac:(lra)) as (k & Hl & E). cbv zeta in Hl, E. rewrite Rle_bool_false in E by lra.
  assert (K : (k = 0)%Z).
  { assert (-1 < IZR k < 1) by (split; apply Rmult_lt_reg_r with PI; lra).
    assert (IZR (-1) < IZR k < IZR 1) as [K1 K2] by lra. apply lt_IZR in K1, K2. lia. }
  subst k. rewrite !Rmult_0_l, !Rplus_0_r in E. eexists. split; [exact E|].
  split; [apply real_el; exists (PI / 4); split; [reflexivity|lra]|].
  assert (C4 : 0 < cos (PI / 4)) by (apply cos_gt_0; lra). split; [lra|].
  rewrite tan_0, tan_PI4. assert (T : tan (3 * PI / 4) = -1).
  { replace (3 * PI / 4) with (PI - PI / 4) by field. rewrite Rtrigo_facts.tan_pi_minus by lra. rewrite tan_PI4. ring. }
  rewrite T, Rmin_right, Rmax_left by lra. rewrite real_el. intros (r & Er & Hr). injection Er as <-. lra.
Qed.
