(** The laws of the usual arithmetic conversions, proved for every conversion of MixedArithModel.v. *)
From Coq Require Import ZArith Reals Bool Lia Lra.
From Flocq Require Import Core BinarySingleNaN.
From Verif Require Import Outcome SetModel Num NumLaws IntervalModel IvlSpec IvlProofs IntNum IntProofs XReal FloatNum FloatProofs ValueTypes MixedModel MixedProofs MixedArithModel.
Open Scope Z_scope.

Record conv_laws (L T : num) (c : L -> T) : Prop := {
  cv_mono : forall a b : L, o_le a b = true -> o_le (c a) (c b) = true;
  cv_ok : forall a : L, ok (c a) -> ok a;
  cv_pos : forall a : L, o_lt n_zero (c a) = o_lt n_zero a;
  cv_neg : forall a : L, o_lt (c a) n_zero = o_lt a n_zero;
  cv_ninf : n_float T = true -> forall a : L, is_ninf (c a) = is_ninf a;
  cv_pinf : n_float T = true -> forall a : L, is_pinf (c a) = is_pinf a;
  (** integers are not skipped *)
  cv_onto : n_float T = false -> forall (a b : L) (t : T), o_le (c a) t = true -> o_le t (c b) = true -> exists d, o_le a d = true /\ o_le d b = true /\ c d = t
}.

Lemma same_conv N : num_laws N -> conv_laws N N (fun a => a).
Proof. intros HN. split; auto. intros _ a b t H1 H2. exists t. auto. Qed.

Lemma int_conv w w' Hw Hw' H : conv_laws (int_num w Hw) (int_num w' Hw') (int_widen w w' Hw H).
Proof.
  split; try reflexivity; cbn; auto; try discriminate.
  intros _ a b t H1 H2. apply Z.leb_le in H1, H2. cbn in H1, H2. pose proof (val_range w a) as Ra. pose proof (val_range w b) as Rb.
    assert (Rt : int_min w <= val t <= int_max w) by lia. apply (int_of_def w) in Rt as (d & Hd). apply int_of_ret in Hd. exists d. rewrite Hd.
    split; [apply Z.leb_le; exact H1|]. split; [apply Z.leb_le; exact H2|]. apply val_inj. exact Hd.
Qed.

Section Denoted.
  Context {L T : num} {rl rt : R -> xr} {pl : L -> xr} {pt : T -> xr} (DL : denotes L rl pl) (DT : denotes T rt pt) (c : L -> T).
  Hypothesis exact : forall a, pt (c a) = pl a.
  Lemma denoted_conv : conv_laws L T c.
  Proof.
    assert (FT : n_float T = true) by apply (d_float _ _ _ DT). assert (FL : n_float L = true) by apply (d_float _ _ _ DL).
    split.
    - intros a b. now rewrite (d_le _ _ _ DL), (d_le _ _ _ DT), !exact.
    - intros a. unfold ok. now rewrite (d_le _ _ _ DL), (d_le _ _ _ DT), !exact.
    - intros a. now rewrite (d_lt _ _ _ DL), (d_lt _ _ _ DT), exact, (d_zero _ _ _ DL), (d_zero _ _ _ DT).
    - intros a. now rewrite (d_lt _ _ _ DL), (d_lt _ _ _ DT), exact, (d_zero _ _ _ DL), (d_zero _ _ _ DT).
    - intros _ a. unfold is_ninf. now rewrite FT, FL, (d_eq _ _ _ DL), (d_eq _ _ _ DT), exact, (d_bot _ _ _ DL), (d_bot _ _ _ DT).
    - intros _ a. unfold is_pinf. now rewrite FT, FL, (d_eq _ _ _ DL), (d_eq _ _ _ DT), exact, (d_top _ _ _ DL), (d_top _ _ _ DT).
    - intros H. rewrite FT in H. discriminate.
  Qed.
End Denoted.

(** ** Conversion between floating-point formats *)
Lemma float_conv_x prec emax prec' emax' Hp' He' (a : binary_float prec emax) :
  f2x prec' emax' (float_conv prec emax prec' emax' Hp' He' a) = xround (rd prec' emax') (f2x prec emax a).
Proof.
  destruct a as [s|[|]| |s m e B]; try reflexivity.
  - cbn [float_conv f2x xround]. now rewrite rd_0.
  - cbn [float_conv f2x xround]. pose proof (binary_normalize_correct prec' emax' Hp' He' mode_NE (cond_Zopp s (Zpos m)) e s) as H. cbn zeta in H.
    change (F2R (Float radix2 (cond_Zopp s (Z.pos m)) e)) with (@B2R prec emax (B754_finite s m e B)) in H. cbn [round_mode] in H. unfold rd.
    destruct (Rlt_bool (Rabs _) _) eqn:E.
    + destruct H as (H1 & H2 & _). rewrite f2x_finite by auto. now rewrite H1.
    + rewrite overflow_ne in H. exact (f2x_inf _ _ _ _ H).
Qed.
Lemma float_conv_mono prec emax prec' emax' Hp' He' (a b : binary_float prec emax) : Bleb a b = true ->
  Bleb (float_conv prec emax prec' emax' Hp' He' a) (float_conv prec emax prec' emax' Hp' He' b) = true.
Proof.
  rewrite !leb_xle, !float_conv_x. intros H. destruct (f2x prec emax a) as [| |r|], (f2x prec emax b) as [| |s|]; try discriminate; try reflexivity.
  - cbn [xround]. unfold rd. destruct (Rlt_bool _ _); [reflexivity|]. destruct (Rlt_bool s 0); reflexivity.
  - cbn [xround]. apply (rd_mono _ _ Hp'). now apply Rle_bool_true_iff || (cbn in H; destruct (Rle_bool_spec r s); [assumption|discriminate]).
  - cbn [xround]. unfold rd. destruct (Rlt_bool _ _); [reflexivity|]. destruct (Rlt_bool r 0); reflexivity.
Qed.
Lemma float_conv_exact prec emax prec' emax' (Hp : Prec_gt_0 prec) Hp' He' (a : binary_float prec emax) : prec <= prec' -> emax <= emax' ->
  f2x prec' emax' (float_conv prec emax prec' emax' Hp' He' a) = f2x prec emax a.
Proof.
  intros H1 H2. rewrite float_conv_x. destruct (f2x prec emax a) as [| |r|] eqn:E; try reflexivity. cbn [xround]. apply f2x_fin in E as [Hf <-].
  unfold rd. rewrite round_generic.
  - rewrite Rlt_bool_true; [reflexivity|]. apply Rlt_le_trans with (bpow radix2 emax); [apply abs_B2R_lt_emax|apply bpow_le; exact H2].
  - auto with typeclass_instances.
  - apply generic_inclusion_mag with (fexp1 := SpecFloat.fexp prec emax); [|apply generic_format_B2R].
    intros _. unfold SpecFloat.fexp, SpecFloat.emin. lia.
Qed.
Lemma float_conv_laws prec emax Hp He prec' emax' Hp' He' : prec <= prec' -> emax <= emax' ->
  conv_laws (float_num prec emax Hp He) (float_num prec' emax' Hp' He') (float_conv prec emax prec' emax' Hp' He').
Proof.
  intros H1 H2. apply (denoted_conv (float_denotes prec emax Hp He) (float_denotes prec' emax' Hp' He')). intros a. now apply float_conv_exact.
Qed.

(** ** Conversion of integers to a floating-point type *)
Section IntFloat.
  Variables (w : Z) (Hw : 2 <= w) (prec emax : Z) (Hp : Prec_gt_0 prec) (He : Prec_lt_emax prec emax).
  Hypothesis small : w <= emax.
  Notation c := (int_to_float w prec emax Hp He).
  Notation rnd := (round radix2 (SpecFloat.fexp prec emax) ZnearestE).
  Local Instance fexp_ok : Valid_exp (SpecFloat.fexp prec emax) := fexp_valid prec emax Hp.

  Lemma bpow_format e : 0 <= e -> e < emax -> generic_format radix2 (SpecFloat.fexp prec emax) (bpow radix2 e).
  Proof. intros H1 H2. unfold Prec_gt_0, Prec_lt_emax in *. apply generic_format_bpow. unfold SpecFloat.fexp, SpecFloat.emin. lia. Qed.
  Lemma round_bpow e : 0 <= e -> e < emax -> rnd (bpow radix2 e) = bpow radix2 e.
  Proof. intros H1 H2. apply round_generic; [auto with typeclass_instances|now apply bpow_format]. Qed.
  Lemma rnd_mono r s : (r <= s)%R -> (rnd r <= rnd s)%R. Proof. intros. apply round_le; auto with typeclass_instances. Qed.

  Lemma int_fin (n : int w) : f2x prec emax (c n) = XFin (rnd (IZR (val n))).
  Proof.
    rewrite int_to_float_x. unfold rd. rewrite Rlt_bool_true; [reflexivity|]. pose proof (val_range w n) as [R1 R2]. unfold int_min, int_max in *.
    apply Rle_lt_trans with (bpow radix2 (w - 1)); [|apply bpow_lt; lia].
    assert (B : IZR (2 ^ (w - 1)) = bpow radix2 (w - 1)) by (rewrite <- (IZR_Zpower radix2) by lia; reflexivity).
    rewrite <- (round_bpow (w - 1)) by lia.
    apply Rabs_le. split.
    - rewrite <- round_NE_opp. apply rnd_mono. rewrite <- B, <- opp_IZR. apply IZR_le. lia.
    - apply rnd_mono. rewrite <- B. apply IZR_le. lia.
  Qed.
  Lemma int_pos (n : int w) : (0 < rnd (IZR (val n)))%R <-> 0 < val n.
  Proof.
    assert (One : rnd 1 = 1%R) by (apply (round_bpow 0); [lia|unfold Prec_gt_0, Prec_lt_emax in *; lia]).
    split; intros H.
    - destruct (Z.lt_ge_cases 0 (val n)) as [K|K]; [exact K|]. exfalso. apply IZR_le in K. apply rnd_mono in K. rewrite round_0 in K by auto with typeclass_instances. lra.
    - assert (K : 1 <= val n) by lia. apply IZR_le in K. apply rnd_mono in K. rewrite One in K. lra.
  Qed.
  Lemma int_neg (n : int w) : (rnd (IZR (val n)) < 0)%R <-> val n < 0.
  Proof.
    assert (One : rnd (-1) = (-1)%R).
    { change (-1)%R with (- (1))%R. rewrite round_NE_opp. f_equal. apply (round_bpow 0); [lia|unfold Prec_gt_0, Prec_lt_emax in *; lia]. }
    split; intros H.
    - destruct (Z.lt_ge_cases (val n) 0) as [K|K]; [exact K|]. exfalso. apply IZR_le in K. apply rnd_mono in K. rewrite round_0 in K by auto with typeclass_instances. lra.
    - assert (K : val n <= -1) by lia. apply IZR_le in K. apply rnd_mono in K. rewrite One in K. lra.
  Qed.
  Lemma int_float_laws : conv_laws (int_num w Hw) (float_num prec emax Hp He) c.
  Proof.
    split; cbn.
    - intros a b H. apply Z.leb_le in H. now apply int_to_float_mono.
    - intros a _. unfold ok. cbn. apply Z.leb_refl.
    - intros a. rewrite ltb_xlt, int_fin. pose proof (int_pos a) as P. unfold xlt, xle. change (f2x prec emax (B754_zero false)) with (XFin 0). destruct (Z.ltb_spec 0 (val a)) as [K|K].
      + apply P in K. rewrite Rle_bool_true by lra. rewrite Rle_bool_false by lra. reflexivity.
      + destruct (Rle_bool_spec (rnd (IZR (val a))) 0) as [Q|Q]; [now rewrite andb_false_r|]. apply P in Q. lia.
    - intros a. rewrite ltb_xlt, int_fin. pose proof (int_neg a) as P. unfold xlt, xle. change (f2x prec emax (B754_zero false)) with (XFin 0). destruct (Z.ltb_spec (val a) 0) as [K|K].
      + apply P in K. rewrite Rle_bool_true by lra. rewrite Rle_bool_false by lra. reflexivity.
      + destruct (Rle_bool_spec 0 (rnd (IZR (val a)))) as [Q|Q]; [now rewrite andb_false_r|]. apply P in Q. lia.
    - intros _ a. unfold is_ninf. cbn. rewrite eqb_xeq, int_fin. reflexivity.
    - intros _ a. unfold is_pinf. cbn. rewrite eqb_xeq, int_fin. reflexivity.
    - discriminate.
  Qed.
End IntFloat.

Lemma converts_laws L T c : value_type T -> converts L T c -> num_laws L /\ num_laws T /\ conv_laws L T c.
Proof.
  intros HT HC. pose proof (value_type_laws T HT) as NT. destruct HC as [N|w w' Hw Hw' H|w Hw prec emax Hp He H|prec emax Hp He prec' emax' Hp' He' H1 H2].
  - auto using same_conv.
  - split; [apply int_num_laws|]. split; [exact NT|apply int_conv].
  - split; [apply int_num_laws|]. split; [exact NT|now apply int_float_laws].
  - split; [apply float_laws|]. split; [exact NT|now apply float_conv_laws].
Qed.
