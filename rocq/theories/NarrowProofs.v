(** isinf, isfinite, isnan (interval.hpp 1339-1375) and narrowing conversions (interval.hpp 1391-1423). *)
From Coq Require Import Reals ZArith Bool Lra Lia.
From Flocq Require Import Core BinarySingleNaN.
From Verif Require Import Outcome SetModel Spec SetProofs Num NumLaws IntervalModel IvlSpec IvlProofs IntNum IntProofs XReal RealNum FloatNum FloatProofs
  MathModel FloatMath RealMath MathSpec MathProofs FloatMathProofs.

Section Classify.
  Context {N : num} {M : math N} (H : fp_math N M) (dbg : bool).
  Implicit Types (X : ivl N).

  Lemma isinf_exact X : proper X -> exists s, iisinf dbg X = Ret s /\ wf_set s
    /\ (member s true <-> exists v, el X v /\ infinite v) /\ (member s false <-> exists v, el X v /\ ~ infinite v).
  Proof.
    destruct (fp_math_denotes N M H) as (rd & phi & D & _). intros HX. pose proof (denotes_ord D) as HO.
    pose proof (el_lower HO X HX) as Hl. pose proof (el_upper HO X HX) as Hu.
    unfold iisinf. rewrite (dbg_assigned HO) by auto. cbn [bind].
    assert (A : is_ninf (lo X) || is_pinf (hi X) = true <-> exists v, el X v /\ infinite v).
    { rewrite orb_true_iff, (ninf_phi D), (pinf_phi D). split.
      - intros [E|E]; [exists (lo X)|exists (hi X)]; (split; [assumption|]); apply (infinite_phi D); auto.
      - intros (v & [V1 V2] & I). rewrite (d_le _ _ _ D) in V1, V2. apply (infinite_phi D) in I as [E|E]; rewrite E in *; [left|right]; [destruct (phi (lo X))|destruct (phi (hi X))]; try discriminate; auto. }
    assert (B : negb (is_ninf (hi X)) && negb (is_pinf (lo X)) = true <-> exists v, el X v /\ ~ infinite v).
    { rewrite andb_true_iff, !negb_true_iff, <- !not_true_iff_false, (ninf_phi D), (pinf_phi D). split.
      - intros [E1 E2]. destruct Hl as [L1 L2]. rewrite (d_le _ _ _ D) in L1, L2.
        destruct (phi (lo X)) as [| |r|] eqn:El; try discriminate L1; try tauto.
        + destruct (phi (hi X)) as [| |s|] eqn:Eu; try tauto; try discriminate L2.
          * exists (hi X). split; [exact Hu|]. rewrite (infinite_phi D), Eu. intros [E|E]; discriminate.
          * exists n_zero. split; [split; rewrite (d_le _ _ _ D), (d_zero _ _ _ D), ?El, ?Eu; reflexivity|]. rewrite (infinite_phi D), (d_zero _ _ _ D). intros [E|E]; discriminate.
        + exists (lo X). split; [split; rewrite (d_le _ _ _ D), El; auto|]. rewrite (infinite_phi D), El. intros [E|E]; discriminate.
      - intros (v & [V1 V2] & I). rewrite (infinite_phi D) in I. rewrite (d_le _ _ _ D) in V1, V2.
        split; intros E; rewrite E in *; destruct (phi v); try discriminate; tauto. }
    eexists. split; [reflexivity|]. split; [apply (two_assign_wf _ _ true)|].
    destruct (two_true (is_ninf (lo X) || is_pinf (hi X)) (negb (is_ninf (hi X)) && negb (is_pinf (lo X))) true) as [T1 T2].
    split; [exact (iff_trans T1 A)|exact (iff_trans T2 B)].
  Qed.
  Lemma isfinite_exact X : proper X -> exists s, iisfinite dbg X = Ret s /\ wf_set s
    /\ (member s true <-> exists v, el X v /\ finite v) /\ (member s false <-> exists v, el X v /\ ~ finite v).
  Proof.
    intros HX. destruct (isinf_exact X HX) as (s & E & W & T & F). unfold iisfinite. rewrite E. cbn [bind].
    pose proof (nl_ord N (fp_laws N M H)) as HO. pose proof (el_lower HO X HX) as Hl.
    assert (Hn : exists r, bnot dbg s = Ret r).
    { destruct dbg; [|now apply bnot_release]. apply (bnot_debug s W). destruct (fp_math_denotes N M H) as (rd & phi & D & _).
      destruct (phi (lo X)) as [| |r|] eqn:P.
      - exfalso. destruct Hl as [K _]. rewrite (d_le _ _ _ D), P in K. discriminate.
      - exists true. apply T. exists (lo X). split; [exact Hl|]. apply (infinite_phi D). auto.
      - exists false. apply F. exists (lo X). split; [exact Hl|]. rewrite (infinite_phi D), P. intros [K|K]; discriminate.
      - exists true. apply T. exists (lo X). split; [exact Hl|]. apply (infinite_phi D). auto. }
    destruct Hn as (r & Hr). exists r. split; [exact Hr|]. split; [exact (bnot_wf dbg s r Hr)|].
    assert (Fin : forall v, el X v -> (finite v <-> ~ infinite v)).
    { intros v Hv. unfold finite. rewrite (nan_not_ok HO). pose proof (el_ok HO X v Hv). tauto. }
    assert (I : forall v : N, infinite v \/ ~ infinite v).
    { intros v. unfold infinite. destruct (n_float N), (o_eq v n_top), (o_eq v n_bot); intuition discriminate. }
    split; rewrite (bnot_exact dbg s r W Hr); unfold ext1; split.
    - intros (b & Hb & E'). destruct b; [discriminate|]. apply F in Hb as (v & Hv & Hi). exists v. split; [exact Hv|]. exact (proj2 (Fin v Hv) Hi).
    - intros (v & Hv & Hf). exists false. split; [|reflexivity]. apply F. exists v. split; [exact Hv|]. exact (proj1 (Fin v Hv) Hf).
    - intros (b & Hb & E'). destruct b; [|discriminate]. apply T in Hb as (v & Hv & Hi). exists v. split; [exact Hv|]. rewrite (Fin v Hv). tauto.
    - intros (v & Hv & Hf). exists true. split; [|reflexivity]. apply T. exists v. split; [exact Hv|]. rewrite (Fin v Hv) in Hf. destruct (I v); tauto.
  Qed.
  Lemma isnan_proper X : proper X -> iisnan dbg X = Ret (bset_of false).
  Proof.
    intros HX. pose proof (nl_ord N (fp_laws N M H)) as HO. unfold iisnan. rewrite (dbg_assigned HO) by auto. cbn [bind].
    pose proof (el_ok HO X _ (el_lower HO X HX)) as A. pose proof (el_ok HO X _ (el_upper HO X HX)) as B. unfold ok in A, B. unfold nan_b. rewrite !(ol_eq N HO), A, B. reflexivity.
  Qed.
  Lemma isnan_nan X : nan_ivl X -> iisnan dbg X = Ret bset_both.
  Proof.
    intros [A B]. pose proof (nl_ord N (fp_laws N M H)) as HO. unfold iisnan. rewrite (nan_not_ok HO) in A, B. unfold ok in A, B.
    replace (assigned X) with true.
    2:{ symmetry. unfold assigned. rewrite negb_true_iff. destruct (o_lt (hi X) (lo X)) eqn:E; auto. rewrite (ol_lt N HO) in E. apply andb_true_iff in E as [E _]. destruct (ol_ok N HO _ _ E) as [K _]. tauto. }
    replace (expects_debug dbg true) with (Ret tt) by (now destruct dbg). cbn [bind]. unfold nan_b. destruct (o_eq (lo X) (lo X)) eqn:E; [|reflexivity].
    rewrite (ol_eq N HO) in E. apply andb_true_iff in E as [E _]. tauto.
  Qed.
End Classify.

(** isfinite of the NaN interval is {true} *)
Lemma isfinite_nan dbg : exists X : ivl float64, nan_ivl X /\ assigned X = true /\ iisfinite dbg X = Ret (bset_of true).
Proof. exists (Ivl n_nan n_nan). split; [split; reflexivity|]. split; [reflexivity|]. now destruct dbg. Qed.

(** ** Narrowing *)
Open Scope Z_scope.
(** [z] is a value of the signed integer type of [w] bits. *)
Definition representable (w z : Z) : Prop := - 2 ^ (w - 1) <= z < 2 ^ (w - 1).
(** The same integers. *)
Definition same_integers {w w' : Z} (X : ivl (int_ordty w)) (Z' : ivl (int_ordty w')) : Prop :=
  forall z : Z, (exists u, el X u /\ val u = z) <-> (exists v, el Z' v /\ val v = z).

Section Narrow.
  Context {w w' : Z} (Hw' : 2 <= w').
  Implicit Types (X : ivl (int_ordty w)).
  Lemma representable_iff z : representable w' z <-> exists a, int_of w' z = Ret a.
  Proof. rewrite int_of_def. unfold representable, int_min, int_max. lia. Qed.
  Lemma int_proper {v} (X : ivl (int_ordty v)) : assigned X = true -> val (lo X) <= val (hi X).
  Proof. unfold assigned. cbn. rewrite negb_true_iff, Z.ltb_ge. auto. Qed.
  Lemma int_el {v} (X : ivl (int_ordty v)) u : el X u <-> val (lo X) <= val u <= val (hi X).
  Proof. unfold el. cbn. rewrite !Z.leb_le. reflexivity. Qed.
  Lemma same_ends X (Y : ivl (int_ordty w')) : val (lo Y) = val (lo X) -> val (hi Y) = val (hi X) -> same_integers X Y.
  Proof.
    intros E1 E2 z. split; intros (u & Hu & <-); apply int_el in Hu.
    - assert (R : exists a, int_of w' (val u) = Ret a). { apply int_of_def. pose proof (val_range w' (lo Y)). pose proof (val_range w' (hi Y)). lia. }
      destruct R as (a & Ha). apply int_of_ret in Ha. exists a. split; [|exact Ha]. apply int_el. lia.
    - assert (R : exists a, int_of w (val u) = Ret a). { apply int_of_def. pose proof (val_range w (lo X)). pose proof (val_range w (hi X)). lia. }
      destruct R as (a & Ha). apply int_of_ret in Ha. exists a. split; [|exact Ha]. apply int_el. lia.
  Qed.
  Lemma mk_int {v} (l u : int_ordty v) : val l <= val u -> mk l u = Ret (Ivl l u).
  Proof. intros H. unfold mk. cbn. now rewrite (proj2 (Z.ltb_ge _ _) H). Qed.
  Lemma narrow_spec X : assigned X = true ->
    (representable w' (val (lo X)) /\ representable w' (val (hi X)) ->
       exists Y, narrow_ Hw' X = Ret Y /\ narrow_failfast_ Hw' X = Ret Y /\ assigned Y = true /\ same_integers X Y) /\
    (~ (representable w' (val (lo X)) /\ representable w' (val (hi X))) -> narrow_ Hw' X = Throw /\ narrow_failfast_ Hw' X = FailFast).
  Proof.
    intros A. pose proof (int_proper X A) as P. unfold narrow_, narrow_failfast_, narrow_value, narrow_failfast_value. rewrite A. split.
    - intros [Hl Hu]. apply representable_iff in Hl as (l & El), Hu as (u & Eu). rewrite El, Eu. cbn [bind]. apply int_of_ret in El, Eu.
      rewrite mk_int by lia. exists (Ivl l u). split; [reflexivity|]. split; [reflexivity|]. split; [|now apply same_ends].
      unfold assigned. cbn. apply negb_true_iff, Z.ltb_ge. lia.
    - intros H. rewrite !representable_iff in H. destruct (int_of_cases w' (val (lo X))) as [E|(l & E)]; rewrite E; [now split|].
      destruct (int_of_cases w' (val (hi X))) as [E'|(u & E')]; rewrite E'; [now split|]. exfalso. apply H. eauto.
  Qed.
  Lemma narrow_unassigned X : assigned X = false ->
    narrow_ Hw' X = Ret (@ivl_default (int_num w' Hw')) /\ narrow_failfast_ Hw' X = Ret (@ivl_default (int_num w' Hw')) /\ narrow_cast_ Hw' X = Ret (@ivl_default (int_num w' Hw'))
    /\ assigned (@ivl_default (int_num w' Hw')) = false.
  Proof.
    intros A. unfold narrow_, narrow_failfast_, narrow_cast_. rewrite A. repeat (split; [reflexivity|]). unfold assigned. apply negb_false_iff.
    destruct (nl_zero _ (int_num_laws w' Hw')) as [K L]. pose proof (nl_ord _ (int_num_laws w' Hw')) as HO. cbn [lo hi ivl_default]. ord HO.
  Qed.
  Lemma narrow_cast_val (v : int_ordty w) : representable w' (val v) -> val (narrow_cast_value Hw' v) = val v.
  Proof.
    unfold representable. intros H. cbn. assert (E : 2 ^ w' = 2 * 2 ^ (w' - 1)) by (rewrite <- Z.pow_succ_r by lia; f_equal; ring).
    rewrite Z.mod_small by lia. ring.
  Qed.
  Lemma narrow_cast_spec X : assigned X = true -> representable w' (val (lo X)) -> representable w' (val (hi X)) ->
    exists Y, narrow_cast_ Hw' X = Ret Y /\ assigned Y = true /\ same_integers X Y.
  Proof.
    intros A Hl Hu. pose proof (int_proper X A) as P. unfold narrow_cast_. rewrite A. pose proof (narrow_cast_val _ Hl). pose proof (narrow_cast_val _ Hu).
    rewrite mk_int by lia. eexists. split; [reflexivity|]. split; [|now apply same_ends]. unfold assigned. apply negb_true_iff, Z.ltb_ge. cbn [lo hi]. lia.
  Qed.
End Narrow.

(** Numbers. *)
Lemma classify_float prec emax Hp He (v : float_num prec emax Hp He) :
  nan_b v = match v with B754_nan => true | _ => false end /\ inf_b v = match v with B754_infinity _ => true | _ => false end /\ finite_b v = is_finite (v : binary_float prec emax).
Proof.
  unfold finite_b, nan_b, inf_b, is_ninf, is_pinf. cbn. unfold Beqb. destruct v as [s|s| |s m e H]; cbn; try (destruct s; auto; fail); auto.
  rewrite Z.compare_refl, Pos.compare_refl. destruct s; auto.
Qed.
