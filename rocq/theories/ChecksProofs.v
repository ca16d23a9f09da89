(** Violated preconditions are reported in debug builds, and not looked at in release builds. *)
From Coq Require Import Reals ZArith Bool List Lra Lia.
From Flocq Require Import Core BinarySingleNaN.
From Verif Require Import Outcome SetModel Spec SetProofs SetProofs2 Num NumLaws IntervalModel IvlSpec IvlProofs ArithProofs IntNum XReal RealNum FloatNum FloatProofs
  MathModel FloatMath RealMath MathSpec MathProofs FloatMathProofs MonoProofs TrigProofs Atan2Proofs PowProofs AlgoProofs WrapProofs MathWrap IvlWrap BlendProofs
  ArithProofs4 IterModel IterProofs DebugProofs ChecksSpec.
Import ListNotations.
Open Scope R_scope.

(** ** contains_index *)
Lemma contains_index_spec (E : enum_type) (s : vset E) (i : Z) :
  (forall v, nth_error (ev_values E) (Z.to_nat i) = Some v -> (0 <= i)%Z -> enum_ok E ->
     exists b, contains_index s i = Ret b /\ (b = true <-> member s v))
  /\ ((i < 0 \/ Z.of_nat (length (ev_values E)) <= i)%Z -> contains_index s i = FailFast).
Proof.
  split.
  - intros v Hv Hi [_ HE]. unfold contains_index.
    assert (L : (Z.to_nat i < length (ev_values E))%nat) by (apply nth_error_Some; congruence).
    replace ((0 <=? i)%Z && (i <? Z.of_nat (num_values E))%Z) with true.
    2:{ symmetry. apply andb_true_iff. split; [apply Z.leb_le; exact Hi|apply Z.ltb_lt]. unfold num_values. lia. }
    cbn [expects bind]. eexists. split; [reflexivity|]. unfold member. replace (Z.to_N i) with (N.of_nat (Z.to_nat i)) by lia. split.
    + intros H. exists (Z.to_nat i). auto.
    + intros (j & Hj & H). replace (Z.to_nat i) with j; [exact H|].
      apply (proj1 (NoDup_nth_error (ev_values E)) HE); [apply nth_error_Some; congruence|congruence].
  - intros H. unfold contains_index. replace ((0 <=? i)%Z && (i <? Z.of_nat (num_values E))%Z) with false; [reflexivity|].
    symmetry. apply andb_false_iff. unfold num_values. destruct H; [left; apply Z.leb_gt|right; apply Z.ltb_ge]; lia.
Qed.

(** ** assign of an unassigned interval, copies *)
Lemma irun_app {N : num} (X : ivl N) ops ops' : irun X (ops ++ ops') = bind (irun X ops) (fun Z => irun Z ops').
Proof. revert X. induction ops as [|o ops IH]; intros X; [reflexivity|]. cbn [app irun]. destruct (istep X o); cbn [bind]; auto. Qed.
Lemma assign_unassigned_fails {N : num} (HN : num_laws N) (ops ops' : list (@iop N)) (Y : ivl N) : Forall iop_legal ops -> unassigned (Iv Y) ->
  irun ivl_default (ops ++ OAssignIvl Y :: ops') = FailFast.
Proof.
  intros L (Y' & E & H). injection E as <-. rewrite irun_app. destruct (run_holds HN ops L) as (Z & -> & _). cbn [bind irun istep].
  unfold iassign, assigned. now rewrite H.
Qed.
Lemma copy_spec {N : num} (X : ivl N) : (~ unassigned (Iv X) -> ivl_copy X = X) /\ (unassigned (Iv X) -> ivl_copy X = ivl_default).
Proof.
  unfold ivl_copy, assigned, unassigned. split.
  - intros H. destruct (o_lt (hi X) (lo X)) eqn:E; [exfalso; apply H; eauto|]. now destruct X.
  - intros (Y & E & H). injection E as <-. now rewrite H.
Qed.

(** ** iterators *)
Lemma iter_add_positions (n w : Z) (a : iter_ordty n) (d : int_ordty w) :
  ((0 <= idx a + val d <= n)%Z -> exists b, iter_add a d = Ret b /\ idx b = (idx a + val d)%Z) /\ (~ (0 <= idx a + val d <= n)%Z -> iter_add a d = UB).
Proof.
  unfold iter_add, iter_of. destruct (bool_dec (in_seq n (idx a + val d)) true) as [H|H].
  - split; [intros _; eexists; split; reflexivity|]. intros K. exfalso. apply K. unfold in_seq in H. lia.
  - split; [|reflexivity]. intros K. exfalso. apply H. unfold in_seq. lia.
Qed.
Lemma iter_sub_positions (n w : Z) (a : iter_ordty n) (d : int_ordty w) :
  ((0 <= idx a - val d <= n)%Z -> exists b, iter_sub a d = Ret b /\ idx b = (idx a - val d)%Z) /\ (~ (0 <= idx a - val d <= n)%Z -> iter_sub a d = UB).
Proof.
  unfold iter_sub, iter_of. destruct (bool_dec (in_seq n (idx a - val d)) true) as [H|H].
  - split; [intros _; eexists; split; reflexivity|]. intros K. exfalso. apply K. unfold in_seq in H. lia.
  - split; [|reflexivity]. intros K. exfalso. apply H. unfold in_seq. lia.
Qed.
Lemma iter_step_positions (n : Z) (a : iter_ordty n) :
  (0 <= idx a <= n)%Z
  /\ ((idx a < n)%Z -> exists b, @o_succ (iter_ordty n) a = Ret b /\ idx b = (idx a + 1)%Z) /\ (idx a = n -> @o_succ (iter_ordty n) a = UB)
  /\ ((0 < idx a)%Z -> exists b, @o_pred (iter_ordty n) a = Ret b /\ idx b = (idx a - 1)%Z) /\ (idx a = 0%Z -> @o_pred (iter_ordty n) a = UB).
Proof.
  destruct a as [z Hz]. cbn [idx proj1_sig o_succ o_pred iter_ordty]. assert (B : (0 <= z <= n)%Z) by (unfold in_seq in Hz; lia). split; [exact B|].
  unfold iter_of. destruct (bool_dec (in_seq n (z + 1)) true) as [H|H], (bool_dec (in_seq n (z - 1)) true) as [K|K];
    unfold in_seq in H, K; (repeat split; intros L; try lia; try reflexivity; try (eexists; split; reflexivity)).
Qed.

(** ** domains *)
Section Domains.
  Context {N : num} (HO : ord_laws N) (M : math N).
  Lemma below_lower (X : ivl N) (c : N) : proper X -> ok c -> (o_le c (lo X) = false <-> some_below (Iv X) c).
  Proof.
    intros P C. unfold proper in P. split.
    - intros H. exists (lo X). unfold ael. cbn [alower aupper]. split; [split; ord HO|ord HO].
    - intros (v & [H1 H2] & H). cbn [alower aupper] in *. apply not_true_iff_false. intros K. ord HO.
  Qed.
  Lemma above_upper (X : ivl N) (c : N) : proper X -> ok c -> (o_le (hi X) c = false <-> some_above (Iv X) c).
  Proof.
    intros P C. unfold proper in P. split.
    - intros H. exists (hi X). unfold ael. cbn [alower aupper]. split; [split; ord HO|ord HO].
    - intros (v & [H1 H2] & H). cbn [alower aupper] in *. apply not_true_iff_false. intros K. ord HO.
  Qed.
  Lemma sqrt_domain (X : ivl N) : proper X -> ok (n_zero : N) -> (isqrt M true X = FailFast <-> some_below (Iv X) n_zero).
  Proof.
    intros P C. rewrite <- below_lower by auto. unfold isqrt, ssqrt. rewrite (dbg_assigned HO) by auto. cbn [bind].
    destruct (o_le n_zero (lo X)) eqn:E; cbn [expects_debug expects bind].
    - assert (K : o_le n_zero (hi X) = true) by (unfold proper in P; ord HO). rewrite K. cbn [expects bind].
      destruct (fub_total HO (m_sqrt M (lo X)) (m_sqrt M (hi X))) as (Z & -> & _). split; discriminate.
    - tauto.
  Qed.
  Lemma log_domain (X : ivl N) : proper X -> ok (n_zero : N) -> increasing nonneg (m_log M) -> (ilog M true X = FailFast <-> some_below (Iv X) n_zero).
  Proof.
    intros P C I. rewrite <- below_lower by auto. destruct (o_le n_zero (lo X)) eqn:E.
    - destruct (log_hull HO M true X P E I) as (Z & -> & _). split; discriminate.
    - unfold ilog, slog. rewrite (dbg_assigned HO) by auto. cbn [bind]. rewrite E. cbn. tauto.
  Qed.
  Lemma within_cases (X : ivl N) : proper X -> o_le n_mone (lo X) = true -> o_le (hi X) n_one = true -> within_one (lo X) /\ within_one (hi X).
  Proof. unfold proper, within_one. intros P A B. repeat split; ord HO. Qed.
  Lemma asin_domain (X : ivl N) : proper X -> ok (n_mone : N) -> ok (n_one : N) -> (iasin M true X = FailFast <-> some_below (Iv X) n_mone \/ some_above (Iv X) n_one).
  Proof.
    intros P C C'. rewrite <- below_lower, <- above_upper by auto. unfold iasin, sasin. rewrite (dbg_assigned HO) by auto. cbn [bind].
    destruct (o_le n_mone (lo X)) eqn:E, (o_le (hi X) n_one) eqn:E'.
    - destruct (within_cases X P E E') as [[A B] [A' B']]. rewrite B, A'. cbn.
      destruct (fub_total HO (m_asin M (lo X)) (m_asin M (hi X))) as (Z & -> & _). split; [discriminate|intros [|]; discriminate].
    - rewrite andb_false_r. destruct (o_le (lo X) n_one); cbn; tauto.
    - cbn. tauto.
    - cbn. tauto.
  Qed.
  Lemma acos_domain (X : ivl N) : proper X -> ok (n_mone : N) -> ok (n_one : N) -> (iacos M true X = FailFast <-> some_below (Iv X) n_mone \/ some_above (Iv X) n_one).
  Proof.
    intros P C C'. rewrite <- below_lower, <- above_upper by auto. unfold iacos, sacos. rewrite (dbg_assigned HO) by auto. cbn [bind].
    destruct (o_le n_mone (lo X)) eqn:E, (o_le (hi X) n_one) eqn:E'.
    - destruct (within_cases X P E E') as [[A B] [A' B']]. rewrite B, A'. cbn.
      destruct (fub_total HO (m_acos M (hi X)) (m_acos M (lo X))) as (Z & -> & _). split; [discriminate|intros [|]; discriminate].
    - rewrite andb_false_r. cbn. tauto.
    - rewrite andb_true_r. destruct (o_le n_mone (hi X)); cbn; tauto.
    - rewrite andb_false_r. cbn. tauto.
  Qed.
End Domains.

Lemma real_sqrt_fails x : ssqrt real_math true (XFin x) = FailFast <-> x < 0.
Proof. unfold ssqrt, expects_debug, expects. cbn. destruct (Rle_bool_spec 0 x); cbn; split; try discriminate; auto; lra. Qed.
Lemma real_log_fails x : slog real_math true (XFin x) = FailFast <-> x < 0.
Proof. unfold slog, expects_debug, expects. cbn. destruct (Rle_bool_spec 0 x); cbn; split; try discriminate; auto; lra. Qed.
Lemma real_asin_fails x : sasin real_math true (XFin x) = FailFast <-> x < -1 \/ 1 < x.
Proof. unfold sasin, expects_debug, expects. cbn. destruct (Rle_bool_spec (-1) x), (Rle_bool_spec x 1); cbn; split; try discriminate; auto; lra. Qed.
Lemma real_acos_fails x : sacos real_math true (XFin x) = FailFast <-> x < -1 \/ 1 < x.
Proof. unfold sacos, expects_debug, expects. cbn. destruct (Rle_bool_spec (-1) x), (Rle_bool_spec x 1); cbn; split; try discriminate; auto; lra. Qed.
Lemma real_atan2_fails y x : satan2 real_math true (XFin y) (XFin x) = FailFast <-> y = 0 /\ x <= 0.
Proof.
  unfold satan2, expects_debug, expects. change (@n_zero real_num) with (XFin 0 : real_num).
  destruct (@o_eq real_num (XFin y) (XFin 0)) eqn:E; destruct (@o_lt real_num (XFin 0) (XFin x)) eqn:L; cbn [negb orb bind].
  - apply real_lt in L. split; [discriminate|lra].
  - apply real_eq in E. split; auto. intros _. split; auto. destruct (Rle_or_lt x 0) as [|K]; auto. apply real_lt in K. congruence.
  - split; [discriminate|]. intros [K _]. apply real_eq in K. congruence.
  - split; [discriminate|]. intros [K _]. apply real_eq in K. congruence.
Qed.

(** ** weights *)
Section Weights.
  Context {N : num} {rd : R -> xr} {phi : N -> xr} (D : denotes N rd phi) {M : math N} (HM : mdenotes D M).
  Let HO : ord_laws N := denotes_ord D.
  Let HN : num_laws N := denotes_laws D.
  Implicit Types (x y a b f : arg N).
  Lemma neg_lower a : aproper a -> ((exists v, ael a v /\ o_lt v n_zero = true) <-> o_le n_zero (alower a) = false).
  Proof.
    pose proof (ok_zero D) as Z. unfold aproper, ael. intros P. split.
    - intros (v & [H1 H2] & H). apply not_true_iff_false. intros K. ord HO.
    - intros H. exists (alower a). split; [split; ord HO|ord HO].
  Qed.
  Lemma neg_check a : aproper a -> o_le n_zero (alower a) = false -> check true (always_nonneg true a) = FailFast.
  Proof.
    intros P H. unfold check. destruct a as [v|X]; cbn [always_nonneg].
    - cbn in H. rewrite H. reflexivity.
    - unfold rel_geq. rewrite (rel_pre_ok HO) by (auto; exact (ok_zero D)). cbn [bind].
      assert (L : o_lt (lo X) n_zero = true) by (pose proof (ok_zero D); unfold aproper in P; cbn in *; ord HO).
      unfold compare_leq. cbn [alower aupper]. rewrite L. destruct (o_le n_zero (hi X)); reflexivity.
  Qed.
  Lemma fraction_rejected f : aproper f -> o_le n_zero (alower f) = false \/ o_le (aupper f) n_one = false -> check true (always_fraction true f) = FailFast.
  Proof.
    intros P H. unfold check. destruct f as [v|X]; cbn [always_fraction].
    - cbn in H. destruct H as [-> | ->]; rewrite ?andb_false_r; reflexivity.
    - unfold rel_geq, rel_leq. rewrite !(rel_pre_ok HO) by (auto; first [exact (ok_zero D)|exact (ok_one D)]). cbn [bind].
      unfold compare_leq. cbn [alower aupper] in *.
      assert (C : o_lt (lo X) n_zero = true \/ o_lt n_one (hi X) = true).
      { pose proof (ok_zero D). pose proof (ok_one D). unfold aproper in P. cbn in P. destruct H; [left|right]; ord HO. }
      destruct C as [C|C]; rewrite C.
      + destruct (o_le n_zero (hi X)), (o_le (lo X) n_one) eqn:A, (o_lt n_one (hi X)) eqn:B; try reflexivity; exfalso; pose proof (ok_one D); unfold aproper in P; cbn in P; ord HO.
      + destruct (o_le n_zero (hi X)) eqn:A, (o_le (lo X) n_one), (o_lt (lo X) n_zero) eqn:B; try reflexivity; exfalso; pose proof (ok_zero D); unfold aproper in P; cbn in P; ord HO.
  Qed.
  Lemma sum_rejected a b s : aproper a -> aproper b -> nonneg (alower a) -> nonneg (alower b) -> n_add (alower a) (alower b) = Ret s -> o_lt n_zero s = false ->
    check true (always_positive_sum true a b) = FailFast.
  Proof.
    intros Hx Hy H1 H2 Hs H.
    assert (Nz : forall z : arg N, nonneg (alower z) -> is_ninf (alower z) = false).
    { intros z Hz. apply not_true_iff_false. rewrite (ninf_phi D). intros E. unfold nonneg in Hz. rewrite (d_le _ _ _ D), E, (d_zero _ _ _ D) in Hz. discriminate. }
    assert (Os : ok s).
    { apply (ok_phi D). destruct (d_add _ _ _ D (alower a) (alower b)) as (s' & Hs' & Es). rewrite Hs in Hs'. injection Hs' as <-. rewrite Es, (xround_nan D).
      unfold nonneg in *. rewrite (d_le _ _ _ D) in *. rewrite (d_zero _ _ _ D) in *. destruct (phi (alower a)), (phi (alower b)); discriminate. }
    assert (G : exists u, iadd true a b = Ret (Ivl s u) /\ o_le s u = true).
    { unfold iadd. rewrite (pre_ok HN true a b Hx Hy). cbn [bind]. rewrite (Nz a H1), (Nz b H2), !andb_false_l, orb_false_r, andb_false_r. rewrite Hs. cbn [bind].
      destruct (d_add _ _ _ D (aupper a) (aupper b)) as (u & Hu & Eu). rewrite Hu. cbn [bind].
      assert (Ou : ok u).
      { apply (ok_phi D). rewrite Eu, (xround_nan D). unfold nonneg, aproper in *. rewrite (d_le _ _ _ D) in *. rewrite (d_zero _ _ _ D) in *.
        destruct (phi (alower a)), (phi (aupper a)); try discriminate; destruct (phi (alower b)), (phi (aupper b)); try discriminate. }
      assert (L : o_le s u = true) by (exact (nl_add_mono N HN _ _ _ _ _ _ Hx Hy Hs Hu Os Ou)).
      exists u. rewrite (mk_proper HO) by exact L. auto. }
    destruct G as (u & G & L).
    assert (K : (c <- rel_gt true (Iv (Ivl s u)) (Sc n_zero) ;; Ret (always c)) = Ret false).
    { unfold rel_gt. rewrite (rel_pre_ok HO) by (auto; exact (ok_zero D)). cbn [bind]. unfold compare_lt. cbn [alower aupper lo hi].
      assert (Q : o_le s n_zero = true) by (pose proof (ok_zero D); ord HO). rewrite Q. destruct (o_lt n_zero u); reflexivity. }
    unfold check. destruct a as [v|X], b as [w|Y]; cbn [always_positive_sum].
    - cbn in Hs. rewrite Hs. cbn [bind]. rewrite H. reflexivity.
    - rewrite G. cbn [bind]. rewrite K. reflexivity.
    - rewrite G. cbn [bind]. rewrite K. reflexivity.
    - rewrite G. cbn [bind]. rewrite K. reflexivity.
  Qed.
  Lemma bad_cases a b : aproper a -> aproper b -> (bad_weights a b <->
    o_le n_zero (alower a) = false \/ o_le n_zero (alower b) = false
    \/ (nonneg (alower a) /\ nonneg (alower b) /\ exists s, n_add (alower a) (alower b) = Ret s /\ o_lt n_zero s = false)).
  Proof.
    intros Pa Pb. split.
    - intros (v & w & Hv & Hw & H). destruct (o_le n_zero (alower a)) eqn:Ea; [|auto]. destruct (o_le n_zero (alower b)) eqn:Eb; [|auto]. right. right.
      split; [exact Ea|]. split; [exact Eb|]. destruct (d_add _ _ _ D (alower a) (alower b)) as (s & Hs & Es). exists s. split; [exact Hs|].
      destruct H as [H|[H|(t & Ht & H)]].
      + exfalso. assert (K : o_le n_zero (alower a) = false) by (apply neg_lower; eauto). congruence.
      + exfalso. assert (K : o_le n_zero (alower b) = false) by (apply neg_lower; eauto). congruence.
      + destruct Hv as [Hv _], Hw as [Hw _].
        assert (Os : ok s).
        { apply (ok_phi D). rewrite Es, (xround_nan D). rewrite (d_le _ _ _ D) in *. rewrite (d_zero _ _ _ D) in *. destruct (phi (alower a)), (phi (alower b)); discriminate. }
        assert (Ot : ok t).
        { destruct (d_add _ _ _ D v w) as (t' & Ht' & Et). rewrite Ht in Ht'. injection Ht' as <-. apply (ok_phi D). rewrite Et, (xround_nan D). rewrite (d_le _ _ _ D) in *. rewrite (d_zero _ _ _ D) in *.
          destruct (phi (alower a)), (phi v); try discriminate; destruct (phi (alower b)), (phi w); discriminate. }
        pose proof (nl_add_mono N HN _ _ _ _ _ _ Hv Hw Hs Ht Os Ot) as L. apply not_true_iff_false. intros K. ord HO.
    - assert (Sa : ael a (alower a)) by (unfold ael, aproper in *; split; ord HO). assert (Sb : ael b (alower b)) by (unfold ael, aproper in *; split; ord HO).
      pose proof (ok_zero D) as Z. unfold aproper in *. intros [H|[H|(_ & _ & H)]]; exists (alower a), (alower b); (split; [exact Sa|]); (split; [exact Sb|]).
      + left. ord HO.
      + right. left. ord HO.
      + auto.
  Qed.
  Lemma weights_checked {A} (k : outcome A) a b : aproper a -> aproper b -> bad_weights a b ->
    (check true (always_nonneg true a) ;;; check true (always_nonneg true b) ;;; check true (always_positive_sum true a b) ;;; k) = FailFast.
  Proof.
    intros Pa Pb B. apply (bad_cases a b Pa Pb) in B.
    destruct (o_le n_zero (alower a)) eqn:Ea; [|now rewrite (neg_check a Pa Ea)]. rewrite (nonneg_check D true a Pa Ea). cbn [bind].
    destruct (o_le n_zero (alower b)) eqn:Eb; [|now rewrite (neg_check b Pb Eb)]. rewrite (nonneg_check D true b Pb Eb). cbn [bind].
    destruct B as [B|[B|(A1 & A2 & s & Hs & K)]]; try discriminate. now rewrite (sum_rejected a b s Pa Pb A1 A2 Hs K).
  Qed.
  Lemma weights_reject a b : aproper a -> aproper b -> bad_weights a b -> iweights true a b = FailFast.
  Proof. intros Pa Pb B. unfold iweights. rewrite (pre_ok HN true a b Pa Pb). cbn [bind]. now apply weights_checked. Qed.
  Lemma blend_linear_rejects a b x y : aproper a -> aproper b -> aproper x -> aproper y -> (iblend_linear true a b x y = FailFast <-> bad_weights a b).
  Proof.
    intros Pa Pb Px Py. split.
    - intros F. rewrite (bad_cases a b Pa Pb). destruct (o_le n_zero (alower a)) eqn:Ea; [|auto]. destruct (o_le n_zero (alower b)) eqn:Eb; [|auto]. right. right.
      split; [exact Ea|]. split; [exact Eb|]. destruct (d_add _ _ _ D (alower a) (alower b)) as (s & Hs & _). exists s. split; [exact Hs|].
      apply not_true_iff_false. intros K. destruct (blend_linear_always D HM true a b x y s Pa Pb Px Py Ea Eb Hs K) as (Z & EZ). congruence.
    - intros B. unfold iblend_linear. rewrite !(aproper_assigned HO) by assumption. cbn [andb expects_debug expects bind]. now apply weights_checked.
  Qed.
  Lemma blend_fractions_rejects f x y : aproper f -> aproper x -> aproper y ->
    (iblend_fractions true f x y = FailFast <-> some_below f n_zero \/ some_above f n_one).
  Proof.
    intros Pf Px Py. pose proof (ok_zero D) as OZ. pose proof (ok_one D) as O1. split.
    - intros F. destruct (o_le n_zero (alower f)) eqn:E0; [destruct (o_le (aupper f) n_one) eqn:E1|].
      + exfalso. destruct (blend_fractions_total D true f x y Pf Px Py E0 E1) as (Z & EZ). congruence.
      + right. exists (aupper f). unfold ael, aproper in *. split; [split; ord HO|ord HO].
      + left. exists (alower f). unfold ael, aproper in *. split; [split; ord HO|ord HO].
    - intros H. unfold iblend_fractions. rewrite !(aproper_assigned HO) by assumption. cbn [andb expects_debug expects bind]. rewrite fraction_rejected; auto.
      unfold aproper in Pf. destruct H as [(v & [A B] & H)|(v & [A B] & H)]; [left|right]; apply not_true_iff_false; intros K; ord HO.
  Qed.
  Lemma blend_fractions_release f x y : aproper f -> aproper x -> aproper y -> exists Z, iblend_fractions false f x y = Ret Z.
  Proof. intros Pf Px Py. apply (blend_fractions_checked D); auto. now apply (aproper_assigned HO). Qed.
End Weights.

Section Wrapped.
  Context {N : num} {M : math N} (H : fp_math N M).
  Lemma fp_weights_reject (a b : arg N) : aproper a -> aproper b -> bad_weights a b -> iweights true a b = FailFast.
  Proof. destruct (fp_math_denotes N M H) as (rd & phi & D & HM). apply (weights_reject D). Qed.
  Lemma fp_blend_linear_rejects (a b x y : arg N) : aproper a -> aproper b -> aproper x -> aproper y -> (iblend_linear true a b x y = FailFast <-> bad_weights a b).
  Proof. destruct (fp_math_denotes N M H) as (rd & phi & D & HM). apply (blend_linear_rejects D HM). Qed.
  Lemma fp_blend_fractions_rejects (f x y : arg N) : aproper f -> aproper x -> aproper y ->
    (iblend_fractions true f x y = FailFast <-> some_below f n_zero \/ some_above f n_one).
  Proof. destruct (fp_math_denotes N M H) as (rd & phi & D & HM). apply (blend_fractions_rejects D). Qed.
  Lemma fp_blend_fractions_release (f x y : arg N) : aproper f -> aproper x -> aproper y -> exists Z, iblend_fractions false f x y = Ret Z.
  Proof. destruct (fp_math_denotes N M H) as (rd & phi & D & HM). apply (blend_fractions_release D). Qed.
  Lemma fp_domains (X : ivl N) : proper X ->
    (isqrt M true X = FailFast <-> some_below (Iv X) n_zero)
    /\ (increasing nonneg (m_log M) -> (ilog M true X = FailFast <-> some_below (Iv X) n_zero))
    /\ (iasin M true X = FailFast <-> some_below (Iv X) n_mone \/ some_above (Iv X) n_one)
    /\ (iacos M true X = FailFast <-> some_below (Iv X) n_mone \/ some_above (Iv X) n_one).
  Proof.
    intros P. destruct (fp_math_denotes N M H) as (rd & phi & D & HM). pose proof (denotes_ord D) as HO.
    assert (Om : ok (n_mone : N)) by (apply (ok_phi D); rewrite (d_mone _ _ _ D); discriminate).
    pose proof (ok_zero D). pose proof (ok_one D).
    split; [now apply sqrt_domain|]. split; [intros I; now apply log_domain|]. split; [now apply asin_domain|now apply acos_domain].
  Qed.
End Wrapped.

(** ** scalar blends *)
Lemma real_check (c : R) : forall b, check true (Ret (@o_le real_num (XFin b) (XFin c))) = if Rle_bool b c then Ret tt else FailFast.
Proof. intros b. unfold check. cbn. now destruct (Rle_bool b c). Qed.
Lemma real_scalar_weights a b x y : (@sblend_linear real_num true (XFin a) (XFin b) (XFin x) (XFin y) = FailFast <-> a < 0 \/ b < 0 \/ a + b <= 0)
  /\ (@sweights real_num true (XFin a) (XFin b) = FailFast <-> a < 0 \/ b < 0 \/ a + b <= 0)
  /\ (sblend_quadratic real_math true (XFin a : real_num) (XFin b) (XFin x) (XFin y) = FailFast <-> a < 0 \/ b < 0 \/ a + b <= 0).
Proof.
  assert (W : (a < 0 \/ b < 0 \/ a + b <= 0) /\ @sweights real_num true (XFin a) (XFin b) = FailFast
    \/ ~ (a < 0 \/ b < 0 \/ a + b <= 0) /\ exists p, @sweights real_num true (XFin a) (XFin b) = Ret p).
  { unfold sweights. change (@n_zero real_num) with (XFin 0 : real_num). rewrite !real_check.
    destruct (Rle_bool_spec 0 a); [|left; split; [lra|reflexivity]]. destruct (Rle_bool_spec 0 b); [|left; split; [lra|reflexivity]]. cbn [bind].
    cbn [n_add real_num xadd bind check]. destruct (@o_lt real_num (XFin 0) (XFin (a + b))) eqn:E.
    - right. apply real_lt in E. split; [lra|]. cbn. eauto.
    - left. split; [|reflexivity]. right. right. destruct (Rle_or_lt (a + b) 0) as [|K]; auto. apply real_lt in K. congruence. }
  unfold sblend_linear, sblend_quadratic. destruct W as [[W ->]|[W ((p, q) & ->)]].
  - cbn [bind]. tauto.
  - cbn [bind n_mul n_add real_num nsquare n_float]. split; [|split].
    + split; [discriminate|tauto].
    + split; [discriminate|tauto].
    + split; [|tauto]. intros F. exfalso. unfold nsquare in F. cbn in F. discriminate F.
Qed.
Lemma real_scalar_fraction f x y : @sblend_fractions real_num true (XFin f) (XFin x) (XFin y) = FailFast <-> f < 0 \/ 1 < f.
Proof.
  unfold sblend_fractions, expects_debug, expects. cbn. destruct (Rle_bool_spec 0 f), (Rle_bool_spec f 1); cbn; split; try discriminate; auto; lra.
Qed.
(** release builds compute the blends with whatever weights *)
Lemma real_release_linear a b x y : a + b <> 0 -> @sblend_linear real_num false (XFin a) (XFin b) (XFin x) (XFin y) = Ret (XFin ((a * x + b * y) / (a + b)) : real_num).
Proof.
  intros H. unfold sblend_linear, sweights, check. cbn. rewrite !Req_bool_false by exact H. cbn. f_equal. f_equal. field. exact H.
Qed.
Lemma real_release_fraction f x y : @sblend_fractions real_num false (XFin f) (XFin x) (XFin y) = Ret (XFin (f * x + (1 - f) * y) : real_num).
Proof. reflexivity. Qed.

(** [from_bits] drops bits that stand for no value. *)
Lemma from_bits_spec (E : enum_type) (b : N) : wf_set (@from_bits E b)
  /\ (forall v, member (@from_bits E b) v <-> exists i, nth_error (ev_values E) i = Some v /\ N.testbit b (N.of_nat i) = true)
  /\ ((num_values E <= 64)%nat -> to_bits (@from_bits E b) = Ret (b mod 2 ^ N.of_nat (num_values E))%N).
Proof.
  split; [apply wf_from_bits|]. split.
  - intros v. unfold member. split; intros (i & Hi & Hb); exists i; (split; [exact Hi|]); revert Hb; cbn [state from_bits]; unfold from_bits; cbn [state].
    + rewrite N.land_spec. intros Hb. now apply andb_true_iff in Hb.
    + intros Hb. rewrite N.land_spec, Hb, N.ones_spec_low; [reflexivity|]. assert (K : (i < length (ev_values E))%nat) by (apply nth_error_Some; congruence). unfold num_values. lia.
  - intros Hn. rewrite <- N.land_ones. assert (K := @to_bits_from_bits E Hn (N.land b (N.ones (N.of_nat (num_values E))))).
    rewrite <- K.
    + unfold from_bits. now rewrite <- N.land_assoc, N.land_diag.
    + rewrite N.land_ones. apply N.mod_lt. apply N.pow_nonzero. discriminate.
Qed.
(** [to_bits] throws if a member is listed behind the 64th value. *)
Lemma to_bits_spec (E : enum_type) : enum_ok E -> forall s : vset E, wf_set s ->
  (to_bits s = Throw /\ exists i v, (64 <= i)%nat /\ nth_error (ev_values E) i = Some v /\ member s v)
  \/ ((forall i v, nth_error (ev_values E) i = Some v -> member s v -> (i < 64)%nat)
      /\ exists b, to_bits s = Ret b /\ @from_bits E b = s /\ forall i v, nth_error (ev_values E) i = Some v -> (N.testbit b (N.of_nat i) = true <-> member s v)).
Proof.
  intros HE s W. assert (B : forall i v, nth_error (ev_values E) i = Some v -> (N.testbit (state s) (N.of_nat i) = true <-> member s v)) by (intros i v Hi; symmetry; now apply (member_bit HE)).
  destruct (N.lt_ge_cases (state s) (2 ^ 64)) as [K|K].
  - right. split.
    + intros i v Hi Hm. apply (B i v Hi) in Hm. destruct (Nat.lt_ge_cases i 64) as [|G]; [assumption|]. exfalso.
      rewrite N.bits_above_log2 in Hm; [discriminate|]. destruct (N.eq_dec (state s) 0) as [Z|Z]; [rewrite Z; cbn; lia|].
      apply N.log2_lt_pow2 in K; lia.
    + exists (state s). destruct (bits_roundtrip s W K) as (b & Eb & Hb). assert (b = state s) as -> by (unfold to_bits in Eb; rewrite (proj2 (N.ltb_lt _ _) K) in Eb; congruence). auto.
  - left. split; [unfold to_bits; now rewrite (proj2 (N.ltb_ge _ _) K)|]. assert (Z : state s <> 0%N) by (intros Z; rewrite Z in K; cbn in K; lia).
    set (i := N.to_nat (N.log2 (state s))). assert (Ti : N.testbit (state s) (N.of_nat i) = true) by (unfold i; rewrite Nnat.N2Nat.id; now apply N.bit_log2).
    assert (Li : (64 <= i)%nat). { unfold i. assert (64 <= N.log2 (state s))%N; [|lia]. apply N.log2_le_pow2; lia. }
    assert (exists v, nth_error (ev_values E) i = Some v) as (v & Hv).
    { destruct (nth_error (ev_values E) i) eqn:En; [eauto|]. apply nth_error_None in En. rewrite W in Ti by exact En. discriminate. }
    exists i, v. split; [exact Li|]. split; [exact Hv|]. now apply (B i v).
Qed.
Definition wide_enum : enum_type := {| ev := nat; ev_eqb := Nat.eqb; ev_values := seq 0 65 |}.
Lemma wide_enum_ok : enum_ok wide_enum.
Proof. split; [exact Nat.eqb_eq|apply seq_NoDup]. Qed.
