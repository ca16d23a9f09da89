(** Monotone functions; floor, ceil, round, frac, sqrt. *)
From Coq Require Import Reals ZArith Bool Lra.
From Flocq Require Import Core BinarySingleNaN.
From Verif Require Import Outcome SetModel Spec Num NumLaws IntervalModel IvlSpec IvlProofs IntNum FloatNum XReal RealNum FloatProofs
  MathModel FloatMath RealMath MathSpec.
Open Scope R_scope.

Section Monotone.
  Context {N : num} (HO : ord_laws N).
  Implicit Types (X : ivl N) (f : N -> outcome N) (g : N -> N).

  Lemma ends_hull f X (Z : ivl N) a b : proper X -> f (lo X) = Ret a -> f (hi X) = Ret b -> is_hull (fun v => v = a \/ v = b) Z ->
    (forall x z, el X x -> f x = Ret z -> (o_le a z = true /\ o_le z b = true) \/ (o_le b z = true /\ o_le z a = true)) ->
    is_hull (img1 f X) Z.
  Proof.
    intros HX Ha Hb (H1 & (l & Hl & El) & (u & Hu & Eu)) H. destruct (H1 a (or_introl eq_refl)) as [A1 A2], (H1 b (or_intror eq_refl)) as [B1 B2].
    split; [|split].
    - intros z (x & Hx & Hz). destruct (H x z Hx Hz) as [[K1 K2]|[K1 K2]]; split;
        [exact (ol_trans N HO _ a _ A1 K1)|exact (ol_trans N HO _ b _ K2 B2)|exact (ol_trans N HO _ b _ B1 K1)|exact (ol_trans N HO _ a _ K2 A2)].
    - exists l. split; [|exact El]. destruct Hl as [ -> | -> ]; [exists (lo X)|exists (hi X)]; split; auto using (el_lower HO), (el_upper HO).
    - exists u. split; [|exact Eu]. destruct Hu as [ -> | -> ]; [exists (lo X)|exists (hi X)]; split; auto using (el_lower HO), (el_upper HO).
  Qed.
  Lemma mk_ends (a b : N) : o_le a b = true -> exists Z, mk a b = Ret Z /\ is_hull (fun v => v = a \/ v = b) Z.
  Proof.
    intros H. exists (Ivl a b). split; [now apply (mk_proper HO)|]. destruct (ol_ok N HO _ _ H) as [Oa Ob].
    assert (E : forall v : N, ok v -> o_eq v v = true) by (intros v Hv; rewrite (ol_eq N HO); now rewrite Hv).
    split; [|split; [exists a; auto|exists b; auto]]. intros v [ -> | -> ]; split; auto.
  Qed.
  Lemma fub_ends (a b : N) : ok a -> ok b -> exists Z, from_unordered_bounds a b = Ret Z /\ is_hull (fun v => v = a \/ v = b) Z.
  Proof. intros Ha Hb. destruct (fub_total HO a b) as (Z & E & _ & H). eauto. Qed.
  Lemma ends_swap (a b : N) (Z : ivl N) : is_hull (fun v => v = a \/ v = b) Z -> is_hull (fun v => v = b \/ v = a) Z.
  Proof. apply (is_hull_ext). intros v. tauto. Qed.

  (** the two constructors used by the library on the images of the end points *)
  Lemma inc_hull (P : N -> Prop) g f X : proper X -> (forall x, el X x -> P x /\ f x = Ret (g x)) -> increasing P g ->
    (exists Z, mk (g (lo X)) (g (hi X)) = Ret Z /\ is_hull (img1 f X) Z) /\
    (exists Z, from_unordered_bounds (g (lo X)) (g (hi X)) = Ret Z /\ is_hull (img1 f X) Z).
  Proof.
    intros HX Hf Hg. pose proof (el_lower HO X HX) as Hl. pose proof (el_upper HO X HX) as Hu.
    destruct (Hf _ Hl) as [Pl El], (Hf _ Hu) as [Pu Eu].
    pose proof (Hg _ _ Pl Pu HX) as L. destruct (ol_ok N HO _ _ L) as [Oa Ob].
    assert (B : forall x z, el X x -> f x = Ret z -> (o_le (g (lo X)) z = true /\ o_le z (g (hi X)) = true) \/ (o_le (g (hi X)) z = true /\ o_le z (g (lo X)) = true)).
    { intros x z Hx Hz. left. destruct (Hf x Hx) as [Px Ex]. rewrite Hz in Ex. injection Ex as ->. destruct Hx. split; apply Hg; auto. }
    split.
    - destruct (mk_ends _ _ L) as (Z & E & H). exists Z. split; [exact E|]. eapply ends_hull; eauto.
    - destruct (fub_ends _ _ Oa Ob) as (Z & E & H). exists Z. split; [exact E|]. eapply ends_hull; eauto.
  Qed.
  Lemma dec_hull (P : N -> Prop) g f X : proper X -> (forall x, el X x -> P x /\ f x = Ret (g x)) -> decreasing P g ->
    exists Z, from_unordered_bounds (g (hi X)) (g (lo X)) = Ret Z /\ is_hull (img1 f X) Z.
  Proof.
    intros HX Hf Hg. pose proof (el_lower HO X HX) as Hl. pose proof (el_upper HO X HX) as Hu.
    destruct (Hf _ Hl) as [Pl El], (Hf _ Hu) as [Pu Eu].
    pose proof (Hg _ _ Pl Pu HX) as L. destruct (ol_ok N HO _ _ L) as [Oa Ob].
    destruct (fub_ends _ _ Oa Ob) as (Z & E & H). exists Z. split; [exact E|]. apply ends_swap in H. eapply ends_hull; eauto.
    intros x z Hx Hz. right. destruct (Hf x Hx) as [Px Ex]. rewrite Hz in Ex. injection Ex as ->. destruct Hx. split; apply Hg; auto.
  Qed.
  Lemma dbg_assigned dbg X : proper X -> expects_debug dbg (assigned X) = Ret tt.
  Proof. intros H. rewrite (proper_assigned HO X H). now destruct dbg. Qed.
End Monotone.

(** The functions of the two kinds of <cmath>, seen through the extended real denoted by a number. *)
Definition xfun (f : R -> R) (x : xr) : xr := match x with XFin r => XFin (f r) | _ => x end.
Record mdenotes {N : num} {rd : R -> xr} {phi : N -> xr} (D : denotes N rd phi) (M : math N) : Prop := {
  md_floor : forall a : N, phi (m_floor M a) = xfun (fun r => IZR (Zfloor r)) (phi a);
  md_ceil : forall a : N, phi (m_ceil M a) = xfun (fun r => IZR (Zceil r)) (phi a);
  md_round : forall a : N, phi (m_round M a) = xfun (fun r => IZR (ZnearestA r)) (phi a);
  md_sqrt : forall a : N, o_le n_zero a = true -> phi (m_sqrt M a) = xround rd (xfun sqrt (phi a));
  md_rd_1 : rd 1 = XFin 1
}.

Section Rounding.
  Context {N : num} {rd : R -> xr} {phi : N -> xr} (D : denotes N rd phi) {M : math N} (HM : mdenotes D M) (dbg : bool).
  Let HO : ord_laws N := denotes_ord D.
  Implicit Types (X : ivl N).

  Lemma xfun_inc (f : R -> R) x y : (forall r s, r <= s -> f r <= f s) -> xle x y = true -> xle (xfun f x) (xfun f y) = true.
  Proof.
    intros Hf. destruct x, y; cbn; auto. destruct (Rle_bool_spec r r0); [|discriminate]. intros _. apply Rle_bool_true. auto.
  Qed.
  Lemma floor_inc : increasing anywhere (m_floor M).
  Proof.
    intros a b _ _ H. rewrite (d_le _ _ _ D) in *. rewrite !(md_floor D M HM). apply xfun_inc; auto. intros. apply IZR_le. now apply Zfloor_le.
  Qed.
  Lemma ceil_inc : increasing anywhere (m_ceil M).
  Proof. intros a b _ _ H. rewrite (d_le _ _ _ D) in *. rewrite !(md_ceil D M HM). apply xfun_inc; auto. intros. apply IZR_le. now apply Zceil_le. Qed.
  Lemma round_inc : increasing anywhere (m_round M).
  Proof.
    intros a b _ _ H. rewrite (d_le _ _ _ D) in *. rewrite !(md_round D M HM). apply xfun_inc; auto. intros. apply IZR_le.
    now apply (Zrnd_le ZnearestA).
  Qed.
  Lemma sqrt_inc : increasing nonneg (m_sqrt M).
  Proof.
    intros a b Ha Hb H. unfold nonneg in *. rewrite (d_le _ _ _ D), !(md_sqrt D M HM) by auto. rewrite (d_le _ _ _ D) in H, Ha, Hb. rewrite (d_zero _ _ _ D) in *.
    destruct (phi a), (phi b); cbn in *; try discriminate; auto.
    - apply (d_rd_mono _ _ _ D). destruct (Rle_bool_spec r r0); [|discriminate]. now apply sqrt_le_1_alt.
    - pose proof (rd_ok D (sqrt r)). now destruct (rd (sqrt r)).
  Qed.

  Lemma floor_hull X : proper X -> hull_of (sfloor M) (ifloor M dbg X) X.
  Proof.
    intros H. unfold hull_of, ifloor. rewrite (dbg_assigned HO) by auto. cbn.
    apply (inc_hull HO anywhere (m_floor M) (sfloor M) X H); [split; [exact Logic.I|reflexivity]|apply floor_inc].
  Qed.
  Lemma ceil_hull X : proper X -> hull_of (sceil M) (iceil M dbg X) X.
  Proof.
    intros H. unfold hull_of, iceil. rewrite (dbg_assigned HO) by auto. cbn.
    apply (inc_hull HO anywhere (m_ceil M) (sceil M) X H); [split; [exact Logic.I|reflexivity]|apply ceil_inc].
  Qed.
  Lemma round_hull X : proper X -> hull_of (sround M) (iround M dbg X) X.
  Proof.
    intros H. unfold hull_of, iround. rewrite (dbg_assigned HO) by auto. cbn.
    apply (inc_hull HO anywhere (m_round M) (sround M) X H); [split; [exact Logic.I|reflexivity]|apply round_inc].
  Qed.
  Lemma sqrt_hull X : proper X -> nonneg (lo X) -> hull_of (ssqrt M dbg) (isqrt M dbg X) X.
  Proof.
    intros H H0. unfold hull_of, isqrt. rewrite (dbg_assigned HO) by auto. cbn.
    assert (P : forall x, el X x -> nonneg x /\ ssqrt M dbg x = Ret (m_sqrt M x)).
    { intros x [Hx _]. assert (Q : nonneg x) by (unfold nonneg; eapply (ol_trans N HO); eauto). split; [exact Q|].
      unfold ssqrt. unfold nonneg in Q. rewrite Q. now destruct dbg. }
    rewrite (proj2 (P _ (el_lower HO X H))), (proj2 (P _ (el_upper HO X H))). cbn.
    apply (inc_hull HO nonneg (m_sqrt M) (ssqrt M dbg) X H P sqrt_inc).
  Qed.

  (** frac *)
  Lemma frac_value (a : N) : finite a -> exists r z, phi a = XFin r /\ sfrac M a = Ret z /\ phi z = rd (r - IZR (Zfloor r)).
  Proof.
    intros [H1 H2]. unfold sfrac. destruct (d_sub _ _ _ D a (m_floor M a)) as (z & Hz & E). rewrite (md_floor D M HM) in E.
    rewrite (nan_not_ok HO), (ok_phi D) in H1. rewrite (infinite_phi D) in H2.
    destruct (phi a) as [| |r|] eqn:Ea; try tauto. exists r, z. split; [auto|]. split; [exact Hz|]. rewrite E. reflexivity.
  Qed.
  Lemma floor_frac r : 0 <= r - IZR (Zfloor r) <= 1.
  Proof. pose proof (Zfloor_lb r). pose proof (Zfloor_ub r). lra. Qed.
  Lemma frac_in X x : proper X -> el X x -> finite x -> exists Z z, ifrac M dbg X = Ret Z /\ sfrac M x = Ret z /\ el Z z.
  Proof.
    intros HX Hx Hf. destruct (frac_value x Hf) as (r & z & Er & Ez & Pz). unfold ifrac. rewrite (dbg_assigned HO) by auto. cbn.
    destruct (o_eq (m_floor M (lo X)) (m_floor M (hi X))) eqn:E; cbn.
    - destruct (d_sub _ _ _ D (lo X) (m_floor M (lo X))) as (l & Hl & El), (d_sub _ _ _ D (hi X) (m_floor M (hi X))) as (u & Hu & Eu).
      rewrite Hl, Hu. cbn. rewrite (d_eq _ _ _ D), !(md_floor D M HM) in E. apply (xeq_iff) in E as [E _]. rewrite (md_floor D M HM) in El, Eu.
      destruct Hx as [X1 X2]. pose proof X1 as Y1. pose proof X2 as Y2. rewrite (d_le _ _ _ D), Er in X1, X2.
      destruct (phi (lo X)) as [| |a|] eqn:Ea; try discriminate X1; destruct (phi (hi X)) as [| |b|] eqn:Eb; try discriminate X2; cbn in E; try discriminate E.
      injection E as E. apply eq_IZR in E. cbn in *. destruct (Rle_bool_spec a r) as [A|]; [|discriminate X1]. destruct (Rle_bool_spec r b) as [B|]; [|discriminate X2].
      assert (F : Zfloor r = Zfloor a). { pose proof (Zfloor_le a r A). pose proof (Zfloor_le r b B). apply Z.le_antisymm; [now rewrite E|auto]. }
      assert (L1 : o_le l z = true) by (rewrite (d_le _ _ _ D), El, Pz, F; apply (d_rd_mono _ _ _ D); lra).
      assert (L2 : o_le z u = true) by (rewrite (d_le _ _ _ D), Eu, Pz, F, E; apply (d_rd_mono _ _ _ D); lra).
      exists (Ivl l u), z. split; [apply (mk_proper HO), (ol_trans N HO _ z); auto|]. split; [exact Ez|]. split; auto.
    - assert (L1 : o_le n_zero z = true) by (rewrite (d_le _ _ _ D), (d_zero _ _ _ D), Pz, <- (d_rd_0 _ _ _ D); apply (d_rd_mono _ _ _ D); apply floor_frac).
      assert (L2 : o_le z n_one = true) by (rewrite (d_le _ _ _ D), (d_one _ _ _ D), Pz, <- (md_rd_1 D M HM); apply (d_rd_mono _ _ _ D); apply floor_frac).
      exists (Ivl n_zero n_one), z. split; [apply (mk_proper HO), (ol_trans N HO _ z); auto|]. split; [exact Ez|]. split; auto.
  Qed.
End Rounding.

Lemma real_mdenotes : mdenotes real_denotes real_math.
Proof.
  constructor; cbn; try (intros [| |r|]; reflexivity).
  intros [| |r|]; cbn; try discriminate; try reflexivity. destruct (Rle_bool_spec 0 r); [|discriminate]. intros _. now rewrite Rlt_bool_false by lra.
  reflexivity.
Qed.
