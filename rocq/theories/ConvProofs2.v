(** Converting constructors and narrowing conversions between floating-point formats. *)
From Coq Require Import ZArith Reals Bool Lia Lra.
From Flocq Require Import Core BinarySingleNaN.
From Verif Require Import Outcome SetModel Num NumLaws IntervalModel IvlSpec IvlProofs IntNum IntProofs XReal FloatNum FloatProofs ValueTypes MixedModel MixedProofs MixedArithModel MixedArithSpec MixedArithProofs ConvProofs.
Open Scope Z_scope.

(** ** Truncation *)
Section Trunc.
  Variables (prec emax : Z) (Hp : Prec_gt_0 prec) (He : Prec_lt_emax prec emax) (w : Z).
  Notation F := (binary_float prec emax).
  Implicit Types a b : F.
  Lemma trunc_x a : Btrunc a = Ztrunc (B2R a).
  Proof.
    apply eq_IZR. rewrite (Btrunc_correct prec emax He). unfold round, scaled_mantissa, F2R. cbn [Fnum Fexp]. unfold cexp, FIX_exp. cbn [bpow Z.opp]. now rewrite !Rmult_1_r.
  Qed.
  Lemma le_finite a b : is_finite a = true -> is_finite b = true -> Bleb a b = true -> (B2R a <= B2R b)%R.
  Proof. intros A B. rewrite leb_xle, !f2x_finite by assumption. cbn. intros H. now destruct (Rle_bool_spec (B2R a) (B2R b)). Qed.
  Lemma to_int_ret a (z : int w) : float_to_int prec emax w a = Ret z <-> is_finite a = true /\ val z = Btrunc a.
  Proof.
    unfold float_to_int. destruct (is_finite a); [|split; [discriminate|intros [H _]; discriminate]]. rewrite int_of_ret. intuition.
  Qed.
  Lemma to_int_mono a b x y : Bleb a b = true -> float_to_int prec emax w a = Ret x -> float_to_int prec emax w b = Ret y -> (val x <=? val y) = true.
  Proof.
    intros H A B. apply to_int_ret in A as [A ->]. apply to_int_ret in B as [B ->]. apply Z.leb_le. rewrite !trunc_x. apply Ztrunc_le. now apply le_finite.
  Qed.
  Lemma between_finite a b d : Bleb a d = true -> Bleb d b = true -> is_finite a = true -> is_finite b = true -> is_finite d = true.
  Proof. destruct a as [| | |], b as [| | |], d as [|[|]| |]; cbn; auto; try discriminate; intros; try (destruct s); try (destruct s0); cbn in *; discriminate. Qed.
  Lemma to_int_def a b d x y : Bleb a d = true -> Bleb d b = true -> float_to_int prec emax w a = Ret x -> float_to_int prec emax w b = Ret y ->
    exists z, float_to_int prec emax w d = Ret z.
  Proof.
    intros H1 H2 A B. apply to_int_ret in A as [FA A]. apply to_int_ret in B as [FB B]. pose proof (between_finite a b d H1 H2 FA FB) as FD.
    unfold float_to_int. rewrite FD. apply int_of_def. pose proof (val_range w x). pose proof (val_range w y). rewrite A in *. rewrite B in *. rewrite !trunc_x in *.
    pose proof (Ztrunc_le _ _ (le_finite a d FA FD H1)). pose proof (Ztrunc_le _ _ (le_finite d b FD FB H2)). lia.
  Qed.
End Trunc.

(** ** The conversions of intervals that do not lose elements *)
Inductive scalar_conversion : forall U T : num, (U -> outcome T) -> Prop :=
| sc_converts U T c : value_type T -> converts U T c -> scalar_conversion U T (fun a => Ret (c a))
| sc_int_float w Hw prec emax Hp He : scalar_conversion (int_num w Hw) (float_num prec emax Hp He) (fun a => Ret (int_to_float w prec emax Hp He a : float_num prec emax Hp He))
| sc_float prec emax Hp He prec' emax' Hp' He' :
    scalar_conversion (float_num prec emax Hp He) (float_num prec' emax' Hp' He') (fun a => Ret (float_conv prec emax prec' emax' Hp' He' a : float_num prec' emax' Hp' He'))
| sc_float_int prec emax Hp He w Hw : scalar_conversion (float_num prec emax Hp He) (int_num w Hw) (float_to_int prec emax w).

Lemma scalar_conversion_laws U T c : scalar_conversion U T c -> num_laws U /\ num_laws T
  /\ (forall (a b : U) x y, o_le a b = true -> c a = Ret x -> c b = Ret y -> o_le x y = true)
  /\ (forall (a b d : U) x y, o_le a d = true -> o_le d b = true -> c a = Ret x -> c b = Ret y -> exists z, c d = Ret z).
Proof.
  intros [U' T' c' HT HC|w Hw prec emax Hp He|prec emax Hp He prec' emax' Hp' He'|prec emax Hp He w Hw].
  - destruct (converts_laws _ _ _ HT HC) as (A & B & C). split; [exact A|]. split; [exact B|]. split; [|eauto].
    intros a b x y H E1 E2. injection E1 as <-. injection E2 as <-. now apply (cv_mono _ _ _ C).
  - split; [apply int_num_laws|]. split; [apply float_laws|]. split; [|eauto].
    intros a b x y H E1 E2. injection E1 as <-. injection E2 as <-. apply Z.leb_le in H. now apply int_to_float_mono.
  - split; [apply float_laws|]. split; [apply float_laws|]. split; [|eauto].
    intros a b x y H E1 E2. injection E1 as <-. injection E2 as <-. now apply float_conv_mono.
  - split; [apply float_laws|]. split; [apply int_num_laws|]. split.
    + intros a b x y. apply (to_int_mono prec emax He w).
    + intros a b d x y. apply (to_int_def prec emax He w).
Qed.
Lemma convert_hull (U T : num) (c : U -> outcome T) (X : ivl U) : scalar_conversion U T c -> proper X ->
  (defined1 c X <-> exists Z, iconvert c X = Ret Z) /\ (forall Z, iconvert c X = Ret Z -> is_hull (img1 c X) Z).
Proof. intros H. destruct (scalar_conversion_laws U T c H) as (A & B & C & D). now apply iconvert_spec. Qed.
Lemma convert_unassigned (U T : num) (c : U -> outcome T) (X : ivl U) : scalar_conversion U T c -> assigned X = false -> exists Z, iconvert c X = Ret Z /\ Z = ivl_default /\ assigned Z = false.
Proof. intros H. destruct (scalar_conversion_laws U T c H) as (A & B & C & D). now apply iconvert_unassigned. Qed.

(** ** Narrowing *)
Section Narrow.
  Context {prec emax prec' emax' : Z} (Hp : Prec_gt_0 prec) (He : Prec_lt_emax prec emax) (Hp' : Prec_gt_0 prec') (He' : Prec_lt_emax prec' emax').
  Hypothesis Pp : prec' <= prec.
  Hypothesis Pe : emax' <= emax.
  Notation U := (float_num prec emax Hp He).
  Notation T := (float_num prec' emax' Hp' He').
  Let HU := float_laws prec emax Hp He.
  Let HT := float_laws prec' emax' Hp' He'.
  Implicit Types (X : ivl U) (v : U).

  Definition fits v : Prop := ok v /\ exists t : T, f2x prec' emax' t = f2x prec emax v.
  Lemma keeps_iff v : keeps_value Hp He Hp' He' v = true <-> fits v.
  Proof.
    unfold keeps_value, fits. cbn [o_eq float_num n_ord float_ordty]. rewrite eqb_xeq. unfold narrow_cast_float.
    rewrite (float_conv_exact prec' emax' prec emax Hp' Hp He _ Pp Pe). rewrite float_conv_x. split.
    - intros H. unfold xeq in H. apply andb_true_iff in H as [H1 H2]. split; [unfold ok; cbn; rewrite leb_xle; now apply xle_ok in H1|].
      exists (float_conv prec emax prec' emax' Hp' He' v). rewrite float_conv_x. set (a := xround _ _) in *. set (b := f2x prec emax v) in *. clearbody a b.
      destruct a, b; cbn in *; try discriminate; auto. f_equal. destruct (Rle_bool_spec r r0), (Rle_bool_spec r0 r); try discriminate. lra.
    - intros [O (t & Ht)]. rewrite <- Ht. rewrite (rd_id prec' emax'). rewrite Ht. unfold xeq. unfold ok in O. cbn in O. rewrite leb_xle in O. now rewrite O.
  Qed.
  Lemma cast_same v : fits v -> f2x prec' emax' (narrow_cast_float Hp He Hp' He' v) = f2x prec emax v.
  Proof. intros [_ (t & Ht)]. unfold narrow_cast_float. rewrite float_conv_x, <- Ht. apply (rd_id prec' emax'). Qed.
  Lemma cast_mono (a b : U) : o_le a b = true -> o_le (narrow_cast_float Hp He Hp' He' a) (narrow_cast_float Hp He Hp' He' b) = true.
  Proof. apply float_conv_mono. Qed.
  Lemma fits_nan v : nan v -> ~ fits v.
  Proof. intros H [O _]. unfold nan in H. pose proof (ol_eq _ (nl_ord _ HU) v v) as E. unfold ok in O. rewrite H, O in E. discriminate. Qed.

  (** Converted intervals: the end points are the same numbers. *)
  Definition same_numbers X (Y : ivl T) : Prop := f2x prec' emax' (lo Y) = f2x prec emax (lo X) /\ f2x prec' emax' (hi Y) = f2x prec emax (hi X).
  Lemma narrow_float_spec X : assigned X = true ->
    (fits (lo X) /\ fits (hi X) -> exists Y, inarrow_float Hp He Hp' He' X = Ret Y /\ inarrow_failfast_float Hp He Hp' He' X = Ret Y
       /\ inarrow_cast_float Hp He Hp' He' X = Ret Y /\ same_numbers X Y)
    /\ (~ (fits (lo X) /\ fits (hi X)) -> inarrow_float Hp He Hp' He' X = Throw /\ inarrow_failfast_float Hp He Hp' He' X = FailFast).
  Proof.
    intros A. unfold inarrow_float, inarrow_failfast_float, inarrow_cast_float, narrow_float, narrow_failfast_float. rewrite A. split.
    - intros [Fl Fu]. rewrite (proj2 (keeps_iff _) Fl), (proj2 (keeps_iff _) Fu). cbn [bind].
      assert (P : o_le (lo X) (hi X) = true).
      { unfold assigned in A. apply negb_true_iff in A. destruct Fl as [O1 _], Fu as [O2 _]. clear - HU A O1 O2. pose proof (nl_ord _ HU) as HO. ord HO. }
      rewrite (mk_proper (nl_ord _ HT) _ _ (cast_mono _ _ P)). eexists. repeat (split; [reflexivity|]). split; cbn [lo hi]; now apply cast_same.
    - intros N. destruct (keeps_value Hp He Hp' He' (lo X)) eqn:E1; [|split; reflexivity]. cbn [bind].
      destruct (keeps_value Hp He Hp' He' (hi X)) eqn:E2; [|split; reflexivity]. apply keeps_iff in E1, E2. tauto.
  Qed.
  (** narrow_cast rounds the end points; no element is lost. *)
  Lemma narrow_cast_float_hull X : proper X -> exists Y, inarrow_cast_float Hp He Hp' He' X = Ret Y /\ is_hull (img1 (fun a => Ret (narrow_cast_float Hp He Hp' He' a)) X) Y.
  Proof.
    intros P. unfold inarrow_cast_float. rewrite (proper_assigned (nl_ord _ HU) X P), (mk_proper (nl_ord _ HT) _ _ (cast_mono _ _ P)). eexists. split; [reflexivity|].
    apply (convert_hull U T _ X (sc_float prec emax Hp He prec' emax' Hp' He') P). unfold iconvert. now rewrite (proper_assigned (nl_ord _ HU) X P).
  Qed.
  Lemma narrow_float_unassigned X : assigned X = false ->
    inarrow_float Hp He Hp' He' X = Ret ivl_default /\ inarrow_failfast_float Hp He Hp' He' X = Ret ivl_default /\ inarrow_cast_float Hp He Hp' He' X = Ret ivl_default.
  Proof. intros A. unfold inarrow_float, inarrow_failfast_float, inarrow_cast_float. rewrite A. auto. Qed.
End Narrow.

(** ** Rounding of the scalar conversions *)
Lemma normalize_rounded prec emax Hp He m e s :
  rounded prec emax (F2R (Float radix2 m e)) (if m =? 0 then s else m <? 0) (@binary_normalize prec emax Hp He mode_NE m e s).
Proof.
  pose proof (binary_normalize_correct prec emax Hp He mode_NE m e s) as H. cbn zeta in H. cbn [round_mode] in H.
  unfold rounded. cbv zeta. change (FLT_exp (3 - emax - prec) prec) with (SpecFloat.fexp prec emax).
  destruct (Rlt_bool_spec (Rabs (round radix2 (SpecFloat.fexp prec emax) ZnearestE (F2R (Float radix2 m e)))) (bpow radix2 emax)) as [L|L].
  - destruct H as (H1 & H2 & H3). split; [destruct (binary_normalize _ _ _ _ _ _ _ _); try reflexivity; discriminate|]. split.
    { rewrite H3. destruct (Z.eqb_spec m 0) as [->|N]; [rewrite F2R_0, Rcompare_Eq; reflexivity|]. destruct (Z.ltb_spec m 0) as [M|M].
      - rewrite Rcompare_Lt; [reflexivity|]. now apply F2R_lt_0.
      - rewrite Rcompare_Gt; [reflexivity|]. apply F2R_gt_0. cbn. lia. }
    split; [auto|]. intros C. exfalso. lra.
  - assert (N : m <> 0).
    { intros ->. rewrite F2R_0, round_0, Rabs_R0 in L by apply valid_rnd_N. pose proof (bpow_gt_0 radix2 emax). lra. }
    rewrite overflow_ne in H. assert (E : Rlt_bool (F2R (Float radix2 m e)) 0 = (if m =? 0 then s else m <? 0)).
    { apply Z.eqb_neq in N. rewrite N. destruct (Z.ltb_spec m 0) as [M|M]; [apply Rlt_bool_true; now apply F2R_lt_0|apply Rlt_bool_false; apply F2R_ge_0; exact M]. }
    rewrite <- E. destruct (binary_normalize _ _ _ _ _ _ _ _); try discriminate. injection H as ->.
    split; [reflexivity|]. split; [reflexivity|]. split; [intros C; exfalso; lra|reflexivity].
Qed.
Lemma int_to_float_rounded w prec emax Hp He (n : int w) : rounded prec emax (IZR (val n)) (val n <? 0) (int_to_float w prec emax Hp He n).
Proof.
  unfold int_to_float. replace (IZR (val n)) with (F2R (Float radix2 (val n) 0)) by (unfold F2R; cbn; lra).
  pose proof (normalize_rounded prec emax Hp He (val n) 0 false) as H. destruct (Z.eqb_spec (val n) 0) as [E|E]; [|exact H]. rewrite E in *. exact H.
Qed.
Lemma float_conv_rounded prec emax prec' emax' (Hp' : Prec_gt_0 prec') He' (a : binary_float prec emax) :
  match a with
  | B754_nan => float_conv prec emax prec' emax' Hp' He' a = B754_nan
  | B754_infinity s => float_conv prec emax prec' emax' Hp' He' a = B754_infinity s
  | _ => rounded prec' emax' (B2R a) (Bsign a) (float_conv prec emax prec' emax' Hp' He' a)
  end.
Proof.
  destruct a as [s|s| |s m e B]; try reflexivity.
  - cbn. unfold rounded. cbv zeta. rewrite round_0, Rabs_R0 by apply valid_rnd_N. pose proof (bpow_gt_0 radix2 emax').
    split; [reflexivity|]. split; [reflexivity|]. split; [auto|]. intros C. exfalso. lra.
  - cbn [float_conv Bsign]. pose proof (normalize_rounded prec' emax' Hp' He' (cond_Zopp s (Zpos m)) e s) as H.
    replace (if cond_Zopp s (Z.pos m) =? 0 then s else cond_Zopp s (Z.pos m) <? 0) with s in H by (destruct s; reflexivity). exact H.
Qed.
Lemma float_to_int_truncates prec emax (Hp : Prec_gt_0 prec) (He : Prec_lt_emax prec emax) w (a : binary_float prec emax) :
  (forall n : int w, float_to_int prec emax w a = Ret n <-> is_finite a = true /\ val n = Ztrunc (B2R a))
  /\ (float_to_int prec emax w a = UB <-> is_finite a = false \/ (is_finite a = true /\ ~ int_min w <= Ztrunc (B2R a) <= int_max w)).
Proof.
  split.
  - intros n. rewrite to_int_ret, (trunc_x prec emax He). reflexivity.
  - unfold float_to_int. destruct (is_finite a); [|intuition discriminate]. rewrite <- (trunc_x prec emax He).
    rewrite <- (int_of_def w). destruct (int_of_cases w (Btrunc a)) as [->|(d & ->)].
    + split; [|reflexivity]. intros _. right. split; [reflexivity|]. intros (x & Hx). discriminate.
    + split; [discriminate|]. intros [C|[_ C]]; [discriminate|]. exfalso. eauto.
Qed.
