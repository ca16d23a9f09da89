(** Proofs about narrowing conversions between floating-point and integer value types. *)
From Coq Require Import ZArith Reals Bool Lia Lra.
From Flocq Require Import Core BinarySingleNaN.
From Verif Require Import Outcome SetModel Num NumLaws IntervalModel IvlSpec IvlProofs IntNum IntProofs XReal FloatNum FloatProofs ValueTypes MixedModel MixedProofs MixedArithModel MixedArithSpec
  MixedArithProofs ConvProofs ConvProofs2 IvlWrap AlgoProofs4 Refute FloatIntModel FloatIntSpec.
Open Scope Z_scope.

Section Narrow.
  Context {prec emax w : Z} (Hp : Prec_gt_0 prec) (He : Prec_lt_emax prec emax) (Hw : 2 <= w).
  Notation F := (float_num prec emax Hp He).
  Notation I := (int_num w Hw).
  Notation i2f := (int_to_float w prec emax Hp He).
  Notation f2i := (float_to_int prec emax w).
  Let HF := float_laws prec emax Hp He.
  Let HI := int_num_laws w Hw.
  Implicit Types (v : F) (n : I).
  Local Instance fexp_ok' : Valid_exp (SpecFloat.fexp prec emax) := fexp_valid prec emax Hp.

  Lemma exact_back v (n : int w) : is_integer v (val n) -> is_integer (i2f n) (val n).
  Proof.
    intros [A B]. assert (E : f2x prec emax (i2f n) = f2x prec emax v).
    { rewrite int_to_float_x. pose proof (rd_id prec emax v) as R. rewrite (f2x_finite prec emax v A) in R |- *. cbn [xround] in R. now rewrite B in R |- *. }
    rewrite (f2x_finite prec emax v A) in E. apply f2x_fin in E as [E1 E2]. split; [exact E1|]. now rewrite E2.
  Qed.
  Lemma f2i_exact v n : is_integer v (val n) -> f2i v = Ret n.
  Proof. intros [A B]. apply to_int_ret. split; [exact A|]. rewrite (trunc_x prec emax He), B. symmetry. apply Ztrunc_IZR. Qed.
  Lemma eqb_finite (a b : F) : is_finite a = true -> is_finite b = true -> Beqb a b = true <-> B2R a = B2R b.
  Proof. intros A B. rewrite (Beqb_correct prec emax a b A B). destruct (Req_bool_spec (B2R a) (B2R b)); split; auto; discriminate. Qed.
  Lemma f2i_part v : part_fits w v <-> exists n, f2i v = Ret n.
  Proof.
    unfold part_fits. rewrite <- (trunc_x prec emax He). rewrite <- (int_of_def w). unfold float_to_int. destruct (is_finite v); [tauto|]. split; [intros [K _]; discriminate|intros (n & K); discriminate].
  Qed.
  Lemma f2i_ub v : ~ part_fits w v -> f2i v = UB.
  Proof.
    intros N. apply (float_to_int_truncates prec emax Hp He w v). unfold part_fits in N. destruct (is_finite v); [right|left; reflexivity]. split; [reflexivity|]. tauto.
  Qed.
  Lemma fits_part v : fits_int w v -> part_fits w v.
  Proof. intros (n & H). apply f2i_part. exists n. now apply f2i_exact. Qed.
  (** The integer part of a floating-point number is a floating-point number. *)
  Lemma part_float v : is_finite v = true -> is_integer (Bnearbyint mode_ZR v) (Ztrunc (B2R v)).
  Proof.
    intros A. destruct (Bnearbyint_correct prec emax He mode_ZR v) as (E1 & E2 & _). split; [now rewrite E2|]. rewrite E1. rewrite <- (trunc_x prec emax He). symmetry. apply (Btrunc_correct prec emax He).
  Qed.

  Lemma fi_exact err v n : is_integer v (val n) -> narrow_with (cast_fi Hp He Hw) (cast_if Hp He Hw) err v = Ret n.
  Proof.
    intros H. unfold narrow_with, cast_fi, cast_if. rewrite (f2i_exact v n H). cbn [bind o_eq n_ord float_num float_ordty].
    destruct (exact_back v n H) as [A B]. destruct H as [A' B']. now rewrite (proj2 (eqb_finite (i2f n) v A A') ltac:(congruence)).
  Qed.
  Lemma fi_differs err v : part_fits w v -> ~ fits_int w v -> narrow_with (cast_fi Hp He Hw) (cast_if Hp He Hw) err v = err.
  Proof.
    intros P N. destruct (proj1 (f2i_part v) P) as (n & E). unfold narrow_with, cast_fi, cast_if. rewrite E. cbn [bind o_eq n_ord float_num float_ordty].
    apply to_int_ret in E as [A E]. rewrite (trunc_x prec emax He) in E. pose proof (part_float v A) as Q. rewrite <- E in Q.
    destruct (exact_back _ n Q) as [B1 B2]. destruct (Beqb (i2f n) v) eqn:K; [|reflexivity]. exfalso. apply (eqb_finite (i2f n) v B1 A) in K. apply N. exists n. split; [exact A|]. now rewrite <- K.
  Qed.
  Lemma fi_ub err v : ~ part_fits w v -> narrow_with (cast_fi Hp He Hw) (cast_if Hp He Hw) err v = UB.
  Proof. intros N. unfold narrow_with, cast_fi. now rewrite (f2i_ub v N). Qed.

  Lemma if_exact err n : fits_float prec emax n -> narrow_with (cast_if Hp He Hw) (cast_fi Hp He Hw) err n = Ret (i2f n).
  Proof.
    intros (v & H). unfold narrow_with, cast_fi, cast_if. cbn [bind]. rewrite (f2i_exact _ n (exact_back v n H)). cbn [bind o_eq n_ord int_num int_ordty]. now rewrite Z.eqb_refl.
  Qed.
  Lemma if_integer n : is_finite (i2f n) = true -> exists z, is_integer (i2f n) z.
  Proof.
    intros A. pose proof (int_to_float_x w prec emax Hp He n) as E. rewrite (f2x_finite prec emax _ A) in E. unfold rd in E. destruct (Rlt_bool _ _); [|destruct (Rlt_bool _ _); discriminate].
    injection E as E. unfold is_integer. rewrite E. set (r := round _ _ _ _). 
    assert (D : exists z, r = IZR z).
    { unfold r, round, F2R, scaled_mantissa. cbn [Fnum Fexp]. set (e := cexp _ _ _). destruct (Z_lt_le_dec e 0) as [L|L].
      - exists (val n). assert (M : (IZR (val n) * bpow radix2 (- e))%R = IZR (val n * 2 ^ (- e))) by (rewrite mult_IZR; f_equal; symmetry; apply (IZR_Zpower radix2); lia).
        rewrite M. rewrite Znearest_imp with (n := val n * 2 ^ (- e)) by (rewrite Rminus_diag_eq by reflexivity; rewrite Rabs_R0; lra). rewrite <- M.
        rewrite Rmult_assoc, <- bpow_plus. replace (- e + e) with 0 by ring. cbn. ring.
      - exists (ZnearestE (IZR (val n) * bpow radix2 (- e)) * 2 ^ e). rewrite mult_IZR. f_equal. symmetry. apply (IZR_Zpower radix2). lia. }
    destruct D as (z & D). exists z. split; [exact A|exact D].
  Qed.
  Lemma if_differs err n : part_fits w (i2f n) -> ~ fits_float prec emax n -> narrow_with (cast_if Hp He Hw) (cast_fi Hp He Hw) err n = err.
  Proof.
    intros P N. destruct (proj1 (f2i_part (i2f n)) P) as (m & E). unfold narrow_with, cast_fi, cast_if. cbn [bind]. rewrite E. cbn [bind o_eq n_ord int_num int_ordty].
    destruct (Z.eqb_spec (val m) (val n)) as [K|K]; [|reflexivity]. exfalso. apply to_int_ret in E as [A E]. rewrite (trunc_x prec emax He) in E.
    destruct (if_integer n A) as (z & _ & Hz). rewrite Hz, Ztrunc_IZR in E. apply N. exists (i2f n). split; [exact A|]. now rewrite Hz, <- E, K.
  Qed.
  Lemma if_ub err n : ~ part_fits w (i2f n) -> narrow_with (cast_if Hp He Hw) (cast_fi Hp He Hw) err n = UB.
  Proof. intros N. unfold narrow_with, cast_fi, cast_if. cbn [bind]. now rewrite (f2i_ub _ N). Qed.
  Lemma fits_float_small n : Z.abs (val n) <= 2 ^ prec -> fits_float prec emax n.
  Proof.
    intros H. pose proof He as P. unfold Prec_lt_emax in P. exists (i2f n). assert (G : generic_format radix2 (SpecFloat.fexp prec emax) (IZR (val n))).
    { destruct (Z.eq_dec (Z.abs (val n)) (2 ^ prec)) as [E|E].
      - assert (B : IZR (2 ^ prec) = bpow radix2 prec) by (rewrite <- (IZR_Zpower radix2) by (unfold Prec_gt_0 in Hp; lia); reflexivity).
        assert (B' : generic_format radix2 (SpecFloat.fexp prec emax) (IZR (2 ^ prec))) by (rewrite B; apply generic_format_bpow; unfold SpecFloat.fexp, SpecFloat.emin, Prec_gt_0 in *; lia).
        destruct (Z.abs_eq_or_opp (val n)) as [A|A]; rewrite A in E; [now rewrite E|]. replace (val n) with (- 2 ^ prec) by lia. rewrite opp_IZR. now apply generic_format_opp.
      - apply generic_format_FLT. apply FLT_spec with (Float radix2 (val n) 0); cbn; [unfold F2R; cbn; ring| |unfold Prec_lt_emax, Prec_gt_0, SpecFloat.emin in *; lia].
        change (radix2 ^ prec)%Z with (2 ^ prec). lia. }
    apply f2x_fin with (x := i2f n). rewrite int_to_float_x. unfold rd. rewrite round_generic by (auto with typeclass_instances).
    rewrite Rlt_bool_true; [reflexivity|]. rewrite <- abs_IZR. apply Rle_lt_trans with (IZR (2 ^ prec)); [now apply IZR_le|].
    change 2 with (radix_val radix2). rewrite IZR_Zpower by (unfold Prec_gt_0 in Hp; lia). now apply bpow_lt.
  Qed.

  (** Intervals. *)
  Implicit Types (X : ivl F) (Y : ivl I).
  Lemma assigned_proper {N : num} (H : num_laws N) (X : ivl N) : assigned X = true -> ok (lo X) -> ok (hi X) -> proper X.
  Proof. intros A L U. unfold assigned in A. apply negb_true_iff in A. pose proof (nl_ord _ H) as HO. clear - HO A L U. unfold proper. ord HO. Qed.
  Lemma finite_ok v : is_finite v = true -> ok v.
  Proof. intros A. unfold ok. cbn. rewrite leb_xle, (f2x_finite prec emax v A). cbn. now rewrite Rle_bool_true by apply Rle_refl. Qed.
  Lemma fi_spec X : assigned X = true ->
    (forall a b : int w, is_integer (lo X) (val a) -> is_integer (hi X) (val b) ->
       inarrow_fi Hp He Hw X = Ret (Ivl a b : ivl I) /\ inarrow_failfast_fi Hp He Hw X = Ret (Ivl a b : ivl I) /\ inarrow_cast_fi Hp He Hw X = Ret (Ivl a b : ivl I))
    /\ (part_fits w (lo X) -> part_fits w (hi X) -> ~ (fits_int w (lo X) /\ fits_int w (hi X)) -> inarrow_fi Hp He Hw X = Throw /\ inarrow_failfast_fi Hp He Hw X = FailFast).
  Proof.
    intros A. unfold inarrow_fi, inarrow_failfast_fi, inarrow_cast_fi, inarrow_with. rewrite A. split.
    - intros a b Ha Hb. rewrite !(fi_exact _ (lo X) a Ha), !(fi_exact _ (hi X) b Hb). unfold cast_fi. rewrite (f2i_exact (lo X) a Ha), (f2i_exact (hi X) b Hb). cbn [bind].
      assert (P : o_le (a : I) b = true).
      { pose proof (assigned_proper HF X A (finite_ok _ (proj1 Ha)) (finite_ok _ (proj1 Hb))) as P.
        exact (to_int_mono prec emax He w (lo X) (hi X) a b P (f2i_exact _ _ Ha) (f2i_exact _ _ Hb)). }
      rewrite (mk_proper (nl_ord _ HI) (a : I) b P). auto.
    - intros Pl Ph N. assert (D : fits_int w (lo X) \/ ~ fits_int w (lo X)).
      { destruct (proj1 (f2i_part (lo X)) Pl) as (n & E). destruct (Req_dec (B2R (lo X : F)) (IZR (val n))) as [K|K]; [left; exists n; split; [apply Pl|exact K]|right].
        intros (m & Hm). rewrite (f2i_exact _ _ Hm) in E. injection E as <-. apply K, Hm. }
      destruct D as [(n & Hn)|D].
      + rewrite !(fi_exact _ (lo X) n Hn). cbn [bind]. assert (N' : ~ fits_int w (hi X)) by (intros C; apply N; split; [exists n; exact Hn|exact C]).
        rewrite !(fi_differs _ (hi X) Ph N'). split; reflexivity.
      + rewrite !(fi_differs _ (lo X) Pl D). split; reflexivity.
  Qed.
  Lemma fi_undefined X : assigned X = true -> ~ part_fits w (lo X) \/ (fits_int w (lo X) /\ ~ part_fits w (hi X)) ->
    inarrow_fi Hp He Hw X = UB /\ inarrow_failfast_fi Hp He Hw X = UB /\ inarrow_cast_fi Hp He Hw X = UB.
  Proof.
    intros A D. unfold inarrow_fi, inarrow_failfast_fi, inarrow_cast_fi, inarrow_with. rewrite A. unfold cast_fi at 5 6. destruct D as [D|[(n & Hn) D]].
    - rewrite !(fi_ub _ (lo X) D), (f2i_ub _ D). auto.
    - rewrite !(fi_exact _ (lo X) n Hn), (f2i_exact (lo X) n Hn). cbn [bind]. rewrite !(fi_ub _ (hi X) D), (f2i_ub _ D). auto.
  Qed.
  Lemma fi_cast X : proper X -> part_fits w (lo X) -> part_fits w (hi X) ->
    exists Z : ivl I, inarrow_cast_fi Hp He Hw X = Ret Z /\ is_hull (fun n => exists v, el X v /\ val n = Ztrunc (B2R (v : F))) Z.
  Proof.
    intros P Pl Ph. pose proof (nl_ord _ HF) as OF. destruct (proj1 (f2i_part _) Pl) as (a & Ea). destruct (proj1 (f2i_part _) Ph) as (b & Eb).
    unfold inarrow_cast_fi, inarrow_with, cast_fi. rewrite (proper_assigned OF X P), Ea, Eb. cbn [bind].
    assert (Q : o_le (a : I) b = true) by exact (to_int_mono prec emax He w (lo X) (hi X) a b P Ea Eb).
    rewrite (mk_proper (nl_ord _ HI) (a : I) b Q). exists (Ivl a b). split; [reflexivity|].
    refine (is_hull_ext _ _ _ _ (proj2 (convert_hull F I _ X (sc_float_int prec emax Hp He w Hw) P) (Ivl a b) _)).
    - intros n. unfold img1. split.
      + intros (v & Hv & E). exists v. split; [exact Hv|]. apply to_int_ret in E as [_ E]. now rewrite (trunc_x prec emax He) in E.
      + intros (v & Hv & E). exists v. split; [exact Hv|]. apply to_int_ret. rewrite (trunc_x prec emax He). split; [|exact E].
        destruct Hv as [H1 H2]. exact (between_finite prec emax (lo X) (hi X) v H1 H2 (proj1 Pl) (proj1 Ph)).
    - unfold iconvert. rewrite (proper_assigned OF X P), Ea. cbn [bind]. rewrite Eb. reflexivity.
  Qed.
  Lemma if_spec Y : assigned Y = true ->
    (fits_float prec emax (lo Y) -> fits_float prec emax (hi Y) ->
       exists X, inarrow_if Hp He Hw Y = Ret X /\ inarrow_failfast_if Hp He Hw Y = Ret X /\ inarrow_cast_if Hp He Hw Y = Ret X /\ is_integer (lo X) (val (lo Y)) /\ is_integer (hi X) (val (hi Y)))
    /\ (part_fits w (i2f (lo Y)) -> part_fits w (i2f (hi Y)) -> ~ (fits_float prec emax (lo Y) /\ fits_float prec emax (hi Y)) -> inarrow_if Hp He Hw Y = Throw /\ inarrow_failfast_if Hp He Hw Y = FailFast).
  Proof.
    intros A. unfold inarrow_if, inarrow_failfast_if, inarrow_cast_if, inarrow_with. rewrite A. split.
    - intros Ha Hb. rewrite !(if_exact _ (lo Y) Ha), !(if_exact _ (hi Y) Hb). unfold cast_if. cbn [bind].
      assert (P : o_le (i2f (lo Y) : F) (i2f (hi Y)) = true).
      { apply int_to_float_mono. unfold assigned in A. apply negb_true_iff in A. cbn in A. apply Z.ltb_ge in A. exact A. }
      rewrite (mk_proper (nl_ord _ HF) (i2f (lo Y) : F) (i2f (hi Y)) P). eexists. do 3 (split; [reflexivity|]). cbn [lo hi]. destruct Ha as (v & Hv), Hb as (u & Hu). split; eapply exact_back; eassumption.
    - intros Pl Ph N. assert (D : fits_float prec emax (lo Y) \/ ~ fits_float prec emax (lo Y)).
      { destruct (Req_dec (B2R (i2f (lo Y))) (IZR (val (lo Y)))) as [K|K]; [left; exists (i2f (lo Y)); split; [apply Pl|exact K]|right].
        intros (v & Hv). apply K. apply (exact_back v (lo Y) Hv). }
      destruct D as [D|D].
      + rewrite !(if_exact _ (lo Y) D). cbn [bind]. rewrite !(if_differs _ (hi Y) Ph) by tauto. split; reflexivity.
      + rewrite !(if_differs _ (lo Y) Pl D). split; reflexivity.
  Qed.
  Lemma if_undefined Y : assigned Y = true -> ~ part_fits w (i2f (lo Y)) \/ (fits_float prec emax (lo Y) /\ ~ part_fits w (i2f (hi Y))) ->
    inarrow_if Hp He Hw Y = UB /\ inarrow_failfast_if Hp He Hw Y = UB.
  Proof.
    intros A D. unfold inarrow_if, inarrow_failfast_if, inarrow_with. rewrite A. destruct D as [D|[Hn D]].
    - rewrite !(if_ub _ (lo Y) D). auto.
    - rewrite !(if_exact _ (lo Y) Hn). cbn [bind]. rewrite !(if_ub _ (hi Y) D). auto.
  Qed.
  Lemma if_cast Y : proper Y -> exists X, inarrow_cast_if Hp He Hw Y = Ret X /\ is_hull (fun v => exists n, el Y n /\ v = i2f n) X.
  Proof.
    intros P. pose proof (nl_ord _ HI) as OI. unfold inarrow_cast_if, inarrow_with, cast_if. rewrite (proper_assigned OI Y P). cbn [bind].
    assert (Q : o_le (i2f (lo Y) : F) (i2f (hi Y)) = true) by (apply int_to_float_mono; apply Z.leb_le; exact P).
    rewrite (mk_proper (nl_ord _ HF) _ _ Q). eexists. split; [reflexivity|].
    refine (is_hull_ext _ _ _ _ (proj2 (convert_hull I F _ Y (sc_int_float w Hw prec emax Hp He) P) _ _)).
    - intros v. unfold img1. split; intros (n & Hn & E); exists n; split; auto; [now injection E as <-|now rewrite E].
    - unfold iconvert. now rewrite (proper_assigned OI Y P).
  Qed.
  Lemma narrow_unassigned X Y : assigned X = false -> assigned Y = false ->
    inarrow_fi Hp He Hw X = Ret ivl_default /\ inarrow_failfast_fi Hp He Hw X = Ret ivl_default /\ inarrow_cast_fi Hp He Hw X = Ret ivl_default
    /\ inarrow_if Hp He Hw Y = Ret ivl_default /\ inarrow_failfast_if Hp He Hw Y = Ret ivl_default /\ inarrow_cast_if Hp He Hw Y = Ret ivl_default.
  Proof. intros A B. unfold inarrow_fi, inarrow_failfast_fi, inarrow_cast_fi, inarrow_if, inarrow_failfast_if, inarrow_cast_if, inarrow_with. rewrite A, B. auto 10. Qed.
  Lemma if_lossless Y : assigned Y = true -> w - 1 <= prec ->
    exists X, inarrow_if Hp He Hw Y = Ret X /\ inarrow_failfast_if Hp He Hw Y = Ret X /\ inarrow_cast_if Hp He Hw Y = Ret X /\ is_integer (lo X) (val (lo Y)) /\ is_integer (hi X) (val (hi Y)).
  Proof.
    intros A W. assert (S : forall n : int w, fits_float prec emax n).
    { intros n. apply fits_float_small. pose proof (val_range w n) as [L U]. unfold int_min, int_max in *.
      assert (Q : 2 ^ (w - 1) <= 2 ^ prec) by (apply Z.pow_le_mono_r; lia). lia. }
    now apply if_spec.
  Qed.
End Narrow.

(** Outcomes other than results, decided by computation. *)
Definition is_ub {A} (m : outcome A) : bool := match m with UB => true | _ => false end.
Lemma ub_witness {A} (m : outcome A) : is_ub m = true -> m = UB.
Proof. destruct m; cbn; intros; congruence. Qed.
Definition is_throw {A} (m : outcome A) : bool := match m with Throw => true | _ => false end.
Lemma throw_witness {A} (m : outcome A) : is_throw m = true -> m = Throw.
Proof. destruct m; cbn; intros; congruence. Qed.
Definition is_failfast {A} (m : outcome A) : bool := match m with FailFast => true | _ => false end.
Lemma failfast_witness {A} (m : outcome A) : is_failfast m = true -> m = FailFast.
Proof. destruct m; cbn; intros; congruence. Qed.
(** narrow<int>(interval{ 0., 1e10 }), narrow<double>(interval<long>{ 0, LONG_MAX }). *)
Definition Xbig : ivl float64 := Ivl (f64 0 0) (f64 10000000000 0).
Definition Ylong : ivl int64 := Ivl n_zero n_top.
Lemma narrow_refuted : (exists X : ivl float64, proper X /\ ~ fits_int 32 (hi X : float64) /\ inarrow_fi prec_gt_0_53 prec_lt_emax_64 le_2_32 X = UB)
  /\ (exists Y : ivl int64, proper Y /\ ~ fits_float 53 1024 (hi Y : int64) /\ inarrow_if prec_gt_0_53 prec_lt_emax_64 le_2_64 Y = UB).
Proof.
  split.
  - exists Xbig. assert (E : inarrow_fi prec_gt_0_53 prec_lt_emax_64 le_2_32 Xbig = UB) by (apply ub_witness; vm_compute; reflexivity). assert (A : assigned Xbig = true) by (vm_compute; reflexivity).
    split; [vm_compute; reflexivity|]. split; [|exact E]. intros (b & Hb).
    assert (Ha : is_integer (lo Xbig : float64) (val (i32 0))) by (split; [reflexivity|]; cbn; reflexivity).
    pose proof (proj1 (fi_spec prec_gt_0_53 prec_lt_emax_64 le_2_32 Xbig A) (i32 0) b Ha Hb) as (K & _). rewrite E in K. discriminate.
  - exists Ylong. assert (E : inarrow_if prec_gt_0_53 prec_lt_emax_64 le_2_64 Ylong = UB) by (apply ub_witness; vm_compute; reflexivity). assert (A : assigned Ylong = true) by (vm_compute; reflexivity).
    split; [vm_compute; reflexivity|]. split; [|exact E]. intros Hb.
    assert (Ha : fits_float 53 1024 (lo Ylong : int64)) by (exists (f64 0 0); split; [reflexivity|]; cbn; reflexivity).
    destruct (proj1 (if_spec prec_gt_0_53 prec_lt_emax_64 le_2_64 Ylong A) Ha Hb) as (Z & K & _). rewrite E in K. discriminate.
Qed.
Lemma part_fits_check (v : float64) : is_finite v && in_range 32 (Btrunc v) = true -> part_fits 32 v.
Proof.
  intros H. apply andb_true_iff in H as [A B]. split; [exact A|]. rewrite <- (trunc_x 53 1024 prec_lt_emax_64). unfold in_range in B. apply andb_true_iff in B as [B1 B2]. apply Z.leb_le in B1, B2. now split.
Qed.
Lemma narrow_example : let X := Ivl (f64 0 0) (f64 1 (-1)) : ivl float64 in let Y := Ivl (f64 (-3) 0) (f64 7 0) : ivl float64 in let W := Ivl (i64 0) (i64 9007199254740993) : ivl int64 in
  proper X /\ part_fits 32 (lo X : float64) /\ part_fits 32 (hi X : float64)
  /\ inarrow_fi prec_gt_0_53 prec_lt_emax_64 le_2_32 X = Throw /\ inarrow_failfast_fi prec_gt_0_53 prec_lt_emax_64 le_2_32 X = FailFast
  /\ (exists Z, inarrow_cast_fi prec_gt_0_53 prec_lt_emax_64 le_2_32 X = Ret Z /\ matches_ivl Z (Ivl (i32 0) (i32 0) : ivl int32) = true)
  /\ (exists Z, inarrow_fi prec_gt_0_53 prec_lt_emax_64 le_2_32 Y = Ret Z /\ matches_ivl Z (Ivl (i32 (-3)) (i32 7) : ivl int32) = true)
  /\ inarrow_if prec_gt_0_53 prec_lt_emax_64 le_2_64 W = Throw
  /\ (exists Z, inarrow_cast_if prec_gt_0_53 prec_lt_emax_64 le_2_64 W = Ret Z /\ matches_ivl Z (Ivl (f64 0 0) (f64 9007199254740992 0) : ivl float64) = true).
Proof.
  cbv zeta. split; [vm_compute; reflexivity|]. split; [apply part_fits_check; vm_compute; reflexivity|]. split; [apply part_fits_check; vm_compute; reflexivity|].
  split; [apply throw_witness; vm_compute; reflexivity|]. split; [apply failfast_witness; vm_compute; reflexivity|]. split; [apply ret_witness; vm_compute; reflexivity|].
  split; [apply ret_witness; vm_compute; reflexivity|]. split; [apply throw_witness; vm_compute; reflexivity|]. apply ret_witness; vm_compute; reflexivity.
Qed.
