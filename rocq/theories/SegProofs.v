(** The facts of machine arithmetic that linear interpolation between two points relies on, for every value type. *)
From Coq Require Import ZArith Reals Bool Lra Lia Psatz.
From Flocq Require Import Core BinarySingleNaN Plus_error.
From Verif Require Import Outcome Num NumLaws XReal IvlSpec IntNum IntProofs FloatNum FloatProofs RealNum ValueTypes MathSpec.

Definition between_0 {N : num} (e p : N) : Prop := (o_le n_zero p = true /\ o_le p e = true) \/ (o_le e p = true /\ o_le p n_zero = true).
Record seg_laws (N : num) : Prop := {
  sl_sub : forall a b d : N, o_lt a b = true -> n_sub b a = Ret d -> finite d ->
    o_lt n_zero d = true /\ forall x a', o_eq a a' = true -> o_le a x = true -> o_le x b = true -> exists z, n_sub x a' = Ret z /\ o_le n_zero z = true /\ o_le z d = true;
  sl_div : forall d d' z : N, o_lt n_zero d = true -> finite d -> o_eq d d' = true -> o_le n_zero z = true -> o_le z d = true ->
    exists t, n_div z d' = Ret t /\ o_le n_zero t = true /\ o_le t n_one = true;
  sl_mul : forall t e e' : N, o_le n_zero t = true -> o_le t n_one = true -> finite e -> o_eq e e' = true -> exists p, n_mul t e' = Ret p /\ between_0 e p;
  sl_add : forall b b' c e p : N, n_sub c b = Ret e -> finite e -> o_eq b b' = true -> between_0 e p -> exists s, n_add b' p = Ret s /\ ok s;
  sl_same : forall a b d : N, o_eq a b = true -> n_sub b a = Ret d -> finite d -> is_zero d /\ forall x a', o_eq a a' = true -> o_eq a x = true -> exists z, n_sub x a' = Ret z /\ is_zero z
}.

Section Int.
  Open Scope Z_scope.
  Variables (w : Z) (Hw : 2 <= w).
  Lemma int_seg_laws : seg_laws (int_num w Hw).
  Proof.
    assert (G : forall z, int_min w <= z <= int_max w -> exists v, int_of w z = Ret v /\ val v = z).
    { intros z H. destruct (proj2 (int_of_def w z) H) as (v & E). exists v. split; [exact E|]. now apply int_of_ret in E. }
    assert (Z0 : int_min w <= 0 <= int_max w) by (pose proof (in_range_0 w Hw) as H; unfold in_range in H; apply andb_true_iff in H; lia).
    constructor; unfold between_0; cbn; intros.
    - apply int_of_ret in H0. apply Z.ltb_lt in H. split; [apply Z.ltb_lt; lia|]. intros x a' Ha Hx1 Hx2. apply Z.eqb_eq in Ha. apply Z.leb_le in Hx1, Hx2. rewrite <- Ha.
      pose proof (val_range w d). destruct (G (val x - val a)) as (v & E & Ev); [lia|]. exists v. split; [exact E|]. split; apply Z.leb_le; lia.
    - apply Z.ltb_lt in H. apply Z.eqb_eq in H1. apply Z.leb_le in H2, H3. rewrite <- H1. destruct (Z.eqb_spec (val d) 0); [lia|].
      assert (0 <= val z ÷ val d <= 1).
      { split; [apply Z.quot_pos; lia|]. apply Z.quot_le_upper_bound; lia. }
      pose proof (in_range_1 w Hw) as H5. unfold in_range in H5. apply andb_true_iff in H5.
      destruct (G (val z ÷ val d)) as (v & E & Ev); [lia|]. exists v. split; [exact E|]. split; apply Z.leb_le; lia.
    - apply Z.leb_le in H, H0. apply Z.eqb_eq in H2. rewrite <- H2. pose proof (val_range w e). assert (V : val t = 0 \/ val t = 1) by lia.
      destruct (G (val t * val e)) as (v & E & Ev); [destruct V as [-> | ->]; lia|]. exists v. split; [exact E|]. rewrite !Z.leb_le.
      destruct V as [V|V]; rewrite V in Ev; lia.
    - apply int_of_ret in H. apply Z.eqb_eq in H1. rewrite <- H1. rewrite !Z.leb_le in H2. pose proof (val_range w b). pose proof (val_range w c).
      destruct (G (val b + val p)) as (v & E & Ev); [lia|]. exists v. split; [exact E|]. apply Z.leb_refl.
    - apply int_of_ret in H0. apply Z.eqb_eq in H. unfold is_zero. cbn. split; [apply Z.eqb_eq; lia|]. intros x a' Ha Hx. apply Z.eqb_eq in Ha, Hx.
      destruct (G (val x - val a')) as (v & E & Ev); [lia|]. exists v. split; [exact E|]. apply Z.eqb_eq. lia.
  Qed.
End Int.

Section Denotes.
  Open Scope R_scope.
  Context {N : num} {rd : R -> xr} {phi : N -> xr} (D : denotes N rd phi).
  Hypothesis rd_pos : forall (a b : N) r s, phi a = XFin r -> phi b = XFin s -> r < s -> xlt (XFin 0) (rd (s - r)) = true.
  Let HO := denotes_ord D.

  Lemma finite_phi (a : N) : finite a -> exists r, phi a = XFin r.
  Proof.
    intros [H1 H2]. rewrite (infinite_phi D) in H2. assert (K : phi a <> XNan).
    { apply (ok_phi D). unfold nan in H1. apply not_false_is_true in H1. rewrite (ol_eq _ HO) in H1. now apply andb_true_iff in H1 as [H1 _]. }
    destruct (phi a); try tauto. eauto.
  Qed.
  Lemma rd_le r s : r <= s -> xle (rd r) (rd s) = true. Proof. apply (d_rd_mono _ _ _ D). Qed.
  Lemma rd_num (a : N) r : phi a = XFin r -> rd r = XFin r.
  Proof. intros H. pose proof (d_rd_id _ _ _ D a) as E. rewrite H in E. exact E. Qed.
  Lemma fin_le r s : xle (XFin r) (XFin s) = true <-> r <= s.
  Proof. cbn. destruct (Rle_bool_spec r s); split; auto; try discriminate; lra. Qed.
  Lemma fin_lt r s : xlt (XFin r) (XFin s) = true <-> r < s.
  Proof. unfold xlt. rewrite andb_true_iff, negb_true_iff, <- not_true_iff_false, !fin_le. lra. Qed.
  Lemma fin_between a r s : xle (XFin r) a = true -> xle a (XFin s) = true -> exists t, a = XFin t /\ r <= t <= s.
  Proof. intros H1 H2. destruct a as [| |t|]; try discriminate. rewrite fin_le in *. eauto. Qed.
  Lemma sub_fin (b a d : N) : n_sub b a = Ret d -> finite d -> exists r s, phi a = XFin r /\ phi b = XFin s /\ phi d = rd (s - r).
  Proof.
    intros E H. apply finite_phi in H as (t & Ht). destruct (d_sub _ _ _ D b a) as (z & Ez & Hz). rewrite E in Ez. injection Ez as <-. rewrite Hz in Ht.
    destruct (phi b) as [| |s|] eqn:Eb, (phi a) as [| |r|] eqn:Ea; cbn in Ht; try discriminate. exists r, s. rewrite Hz. repeat split.
  Qed.

  Lemma phi_eq (a b : N) : o_eq a b = true -> phi a = phi b.
  Proof. rewrite (d_eq _ _ _ D), xeq_iff. tauto. Qed.
  Lemma denotes_seg : seg_laws N.
  Proof.
    constructor.
    - intros a b d L E H. destruct (sub_fin b a d E H) as (r & s & Ea & Eb & Ed). rewrite (d_lt _ _ _ D), Ea, Eb, fin_lt in L.
      rewrite (d_lt _ _ _ D), (d_zero _ _ _ D), Ed. split; [exact (rd_pos a b r s Ea Eb L)|]. intros x a' L0 L1 L2. apply phi_eq in L0.
      rewrite (d_le _ _ _ D) in L1, L2. rewrite Ea in L1. rewrite Eb in L2. apply (fin_between _ _ _ L1) in L2 as (t & Et & Ht).
      destruct (d_sub _ _ _ D x a') as (z & Ez & Hz). exists z. split; [exact Ez|]. rewrite !(d_le _ _ _ D), (d_zero _ _ _ D), Hz, Et, <- L0, Ea, Ed. cbn [xsub xadd xopp xround].
      rewrite <- (d_rd_0 _ _ _ D). split; apply rd_le; lra.
    - intros d d' z Hd H L0 L1 L2. apply phi_eq in L0. apply finite_phi in H as (r & Er). rewrite (d_lt _ _ _ D), (d_zero _ _ _ D), Er, fin_lt in Hd.
      rewrite (d_le _ _ _ D), (d_zero _ _ _ D) in L1. rewrite (d_le _ _ _ D), Er in L2. apply (fin_between _ _ _ L1) in L2 as (t & Et & Ht).
      destruct (d_div _ _ _ D z d') as (q & Eq & Hq & _). exists q. split; [exact Eq|]. rewrite <- L0, Er in Hq. specialize (Hq ltac:(intros K; injection K; lra)).
      rewrite Et in Hq. cbn [xdiv] in Hq. rewrite Req_bool_false in Hq by lra. cbn [xround] in Hq. rewrite !(d_le _ _ _ D), (d_zero _ _ _ D), (d_one _ _ _ D), Hq.
      rewrite <- (d_rd_0 _ _ _ D) at 1. rewrite <- (rd_num n_one 1 (d_one _ _ _ D)). split; apply rd_le.
      + apply Rle_mult_inv_pos; lra.
      + apply (Rmult_le_reg_r r); [lra|]. unfold Rdiv. rewrite Rmult_assoc, Rinv_l by lra. lra.
    - intros t e e' L1 L2 H L0. apply phi_eq in L0. apply finite_phi in H as (r & Er). rewrite (d_le _ _ _ D), (d_zero _ _ _ D) in L1. rewrite (d_le _ _ _ D), (d_one _ _ _ D) in L2.
      apply (fin_between _ _ _ L1) in L2 as (s & Es & Hs). destruct (d_mul _ _ _ D t e') as (p & Ep & Hp). exists p. split; [exact Ep|].
      unfold between_0. rewrite !(d_le _ _ _ D), (d_zero _ _ _ D), Hp, Es, <- L0, Er. cbn [xmul xround]. rewrite <- (d_rd_0 _ _ _ D), <- (rd_num e r Er).
      destruct (Rle_or_lt 0 r); [left|right]; split; apply rd_le; nra.
    - intros b b' c e p E H L0 HB. apply phi_eq in L0. destruct (sub_fin c b e E H) as (r & s & Eb & Ec & Ee). apply finite_phi in H as (u & Eu).
      assert (P : exists v, phi p = XFin v).
      { destruct HB as [[B1 B2]|[B1 B2]]; rewrite (d_le _ _ _ D), ?(d_zero _ _ _ D), ?Eu in B1; rewrite (d_le _ _ _ D), ?(d_zero _ _ _ D), ?Eu in B2; destruct (fin_between _ _ _ B1 B2) as (v & Ev & _); eauto. }
      destruct P as (v & Ev). destruct (d_add _ _ _ D b' p) as (z & Ez & Hz). exists z. split; [exact Ez|]. apply (ok_phi D). rewrite Hz, <- L0, Eb, Ev. cbn. apply (rd_ok D).
    - intros a b d L E H. apply phi_eq in L. destruct (sub_fin b a d E H) as (r & s & Ea & Eb & Ed). rewrite Ea, Eb in L. injection L as <-.
      assert (Z : forall z, phi z = rd (r - r) -> is_zero z).
      { intros z Hz. unfold is_zero. rewrite (d_eq _ _ _ D), (d_zero _ _ _ D), Hz. unfold Rminus. rewrite Rplus_opp_r, (d_rd_0 _ _ _ D). apply xeq_iff. split; [reflexivity|discriminate]. }
      split; [exact (Z d Ed)|]. intros x a' Ha Hx. apply phi_eq in Ha, Hx. destruct (d_sub _ _ _ D x a') as (z & Ez & Hz). exists z. split; [exact Ez|]. apply Z. rewrite Hz, <- Ha, <- Hx, Ea. reflexivity.
  Qed.
End Denotes.

Section Float.
  Open Scope R_scope.
  Variables (prec emax : Z) (Hp : Prec_gt_0 prec) (He : Prec_lt_emax prec emax).
  Existing Instance Hp.
  Existing Instance He.
  (** gradual underflow: different numbers have a difference that is not rounded to zero *)
  Lemma float_seg_laws : seg_laws (float_num prec emax Hp He).
  Proof.
    apply (denotes_seg (float_denotes prec emax Hp He)). intros a b r s Ea Eb L. apply f2x_fin in Ea as [_ <-]. apply f2x_fin in Eb as [_ <-].
    unfold rd. set (t := round _ _ _ _). assert (T : 0 < t).
    { assert (t <> 0). { unfold t, Rminus. apply round_plus_neq_0; try typeclasses eauto; try apply generic_format_opp; try apply generic_format_B2R. lra. }
      assert (0 <= t). { unfold t. rewrite <- (round_0 radix2 (SpecFloat.fexp prec emax) ZnearestE). apply round_le; try typeclasses eauto. lra. } lra. }
    destruct Rlt_bool; [now apply fin_lt|]. rewrite Rlt_bool_false by lra. reflexivity.
  Qed.
End Float.
Lemma real_seg_laws : seg_laws real_num.
Proof. apply (denotes_seg real_denotes). intros a b r s _ _ L. apply fin_lt. lra. Qed.
Lemma value_seg_laws N : value_type N -> seg_laws N.
Proof. intros [w Hw|prec emax Hp He]; [apply int_seg_laws|apply float_seg_laws]. Qed.
