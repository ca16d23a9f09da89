(** pow of intervals of any floating-point type is the hull of exp(y log x) as computed, also for infinite exponents and for bases of both signs
    (interval.hpp 482-526, 1057-1090). *)
From Coq Require Import ZArith Bool Lia.
From Verif Require Import Outcome SetModel Spec SetProofs Num NumLaws IntervalModel IvlSpec IvlProofs ArithProofs ArithProofs2 ArithProofs3 ScalarModel ScalarProofs
  MathModel MathSpec MathProofs MonoProofs AlgoProofs PowHullSpec.

Section PowHull.
  Context {N : num} (HN : num_laws N) (HF : n_float N = true) (M : math N).
  Let HO := nl_ord N HN.
  Implicit Types (X Y Z : ivl N) (a b c p q u v w z : N) (x y l m e : arg N) (P Q : N -> Prop).

  Lemma zero_zero : o_le n_zero (n_zero : N) = true. Proof. exact (ok_zero HN). Qed.
  Lemma not_inf_zero : ~ infinite (n_zero : N).
  Proof. destruct (nl_zero N HN) as [A B]. intros [_ [H|H]]; clear - HO A B H; ord HO. Qed.
  Lemma inf_b_iff u : inf_b u = true <-> infinite u. Proof. apply (infinite_b). Qed.
  Lemma inf_ok u : infinite u -> ok u. Proof. intros [_ [H|H]]; clear - HO H; ord HO. Qed.

  (** ** multiplication *)
  Lemma mul_total u v : exists p, n_mul u v = Ret p. Proof. destruct (nl_float_total N HN HF u v) as (_ & _ & _ & _ & H & _). exact H. Qed.
  Lemma neg_total u : exists p, n_neg u = Ret p. Proof. destruct (nl_float_total N HN HF u u) as (H & _). exact H. Qed.
  Lemma zero_product u v p : is_zero u \/ is_zero v -> ok u -> ok v -> n_mul u v = Ret p -> ok p -> is_zero p.
  Proof.
    intros H Ou Ov Hp Op. apply (nl_mul_nan N HN u v p Ou Ov Hp) in Op. destruct H as [H|H].
    - apply (zero_mul HN v u Ov); auto.
    - rewrite (nl_mul_comm N HN) in Hp. apply (zero_mul HN u v Ou); auto.
  Qed.
  Lemma inf_split u : ok u -> infinite u -> (o_le n_one u = true \/ o_le u n_mone = true).
  Proof.
    intros Ou [_ [H|H]]; destruct (nl_one N HN) as (A & B & _); [left|right].
    - pose proof (nl_top N HN n_one ltac:(clear - HO A; ord HO)) as T. clear - HO H T. ord HO.
    - pose proof (nl_bot N HN n_mone ltac:(clear - HO B; ord HO)) as T. clear - HO H T. ord HO.
  Qed.
  (** signs of products; at most one of the factors is compared with 0 *)
  Lemma inf_dec u : ok u -> infinite u \/ ~ infinite u.
  Proof. intros _. rewrite <- inf_b_iff. destruct (inf_b u); [now left|now right]. Qed.
  Lemma mul_zero_l v : ok v -> ~ infinite v -> exists q, n_mul n_zero v = Ret q /\ is_zero q /\ ok q.
  Proof.
    intros Ov Hv. destruct (nl_mul_zero_def N HN v) as (q & Hq). exists q. split; [exact Hq|].
    assert (is_zero q) as K by (apply (zero_mul HN v n_zero Ov Hv); [unfold is_zero; pose proof zero_zero as Z0; clear - HO Z0; ord HO|exact Hq]).
    split; [exact K|]. unfold is_zero in K. clear - HO K. ord HO.
  Qed.
  Lemma mul_one_l v : ok v -> exists q, n_mul n_one v = Ret q /\ o_eq q v = true /\ ok q.
  Proof. intros Ov. destruct (nl_mul_one N HN v) as (q & Hq & E). exists q. specialize (E Ov). split; [exact Hq|]. split; [exact E|]. clear - HO E. ord HO. Qed.
  Lemma neg_sign v z : n_neg v = Ret z -> (o_le n_zero v = true -> o_le z n_zero = true) /\ (o_le v n_zero = true -> o_le n_zero z = true).
  Proof.
    intros Hz. destruct (neg_total n_zero) as (z0 & E0). pose proof (nl_neg_zero N HN n_zero z0 ltac:(unfold is_zero; pose proof zero_zero as Z0; clear - HO Z0; ord HO) E0) as K. unfold is_zero in K.
    split; intros H.
    - pose proof (nl_neg_anti N HN _ _ _ _ H E0 Hz) as A. clear - HO A K. ord HO.
    - pose proof (nl_neg_anti N HN _ _ _ _ H Hz E0) as A. clear - HO A K. ord HO.
  Qed.
  Lemma mul_mone_l v : ok v -> exists q, n_mul n_mone v = Ret q /\ ok q /\ (o_le n_zero v = true -> o_le q n_zero = true) /\ (o_le v n_zero = true -> o_le n_zero q = true).
  Proof.
    intros Ov. destruct (mul_total n_mone v) as (q & Hq). exists q. split; [exact Hq|]. destruct (nl_mul_mone N HN v q Hq) as (z & Hz & E). specialize (E Ov).
    destruct (neg_sign v z Hz) as [A B]. split; [clear - HO E; ord HO|]. split; intros H; [specialize (A H); clear - HO A E|specialize (B H); clear - HO B E]; ord HO.
  Qed.

  Lemma mul_pos_pos u v p : o_le n_zero u = true -> o_le n_zero v = true -> n_mul u v = Ret p -> ok p -> o_le n_zero p = true.
  Proof.
    intros Hu Hv Hp Op. assert (Ou : ok u) by (clear - HO Hu; ord HO). assert (Ov : ok v) by (clear - HO Hv; ord HO).
    assert (A : forall s t p, o_le n_zero s = true -> o_le n_zero t = true -> infinite s -> n_mul s t = Ret p -> ok p -> o_le n_zero p = true).
    { clear u v p Hu Hv Hp Op Ou Ov. intros s t p Hs Ht I Hp Op. assert (Ot : ok t) by (clear - HO Ht; ord HO).
      destruct (mul_one_l t Ot) as (q & Hq & Eq & Oq). assert (o_le n_one s = true) as L.
      { destruct (inf_split s (inf_ok s I) I) as [H|H]; [exact H|]. destruct (nl_one N HN) as (_ & B & _). exfalso. clear - HO H B Hs. ord HO. }
      pose proof (nl_mul_mono N HN _ _ _ _ _ L Ht Hq Hp Oq Op) as K. clear - HO K Eq Ht. ord HO. }
    destruct (inf_dec u Ou) as [Iu|Fu]; [now apply (A u v)|]. destruct (inf_dec v Ov) as [Iv|Fv]; [rewrite (nl_mul_comm N HN) in Hp; now apply (A v u)|].
    destruct (mul_zero_l v Ov Fv) as (q & Hq & Zq & Oq). pose proof (nl_mul_mono N HN _ _ _ _ _ Hu Hv Hq Hp Oq Op) as K. unfold is_zero in Zq. clear - HO K Zq. ord HO.
  Qed.
  Lemma mul_pos_neg u v p : o_le n_zero u = true -> o_le v n_zero = true -> n_mul u v = Ret p -> ok p -> o_le p n_zero = true.
  Proof.
    intros Hu Hv Hp Op. assert (Ou : ok u) by (clear - HO Hu; ord HO). assert (Ov : ok v) by (clear - HO Hv; ord HO).
    destruct (nl_one N HN) as (N1 & N2 & _).
    destruct (inf_dec u Ou) as [Iu|Fu].
    { destruct (mul_one_l v Ov) as (q & Hq & Eq & Oq). assert (o_le n_one u = true) as L by (destruct (inf_split u Ou Iu) as [H|H]; [exact H|exfalso; clear - HO H N2 Hu; ord HO]).
      pose proof (nl_mul_anti N HN _ _ _ _ _ L Hv Hq Hp Oq Op) as K. clear - HO K Eq Hv. ord HO. }
    destruct (inf_dec v Ov) as [Iv|Fv].
    { rewrite (nl_mul_comm N HN) in Hp. destruct (mul_mone_l u Ou) as (q & Hq & Oq & A & _). specialize (A Hu).
      assert (o_le v n_mone = true) as L by (destruct (inf_split v Ov Iv) as [H|H]; [exfalso; clear - HO H N1 Hv; ord HO|exact H]).
      pose proof (nl_mul_mono N HN _ _ _ _ _ L Hu Hp Hq Op Oq) as K. clear - HO K A. ord HO. }
    destruct (mul_zero_l v Ov Fv) as (q & Hq & Zq & Oq). pose proof (nl_mul_anti N HN _ _ _ _ _ Hu Hv Hq Hp Oq Op) as K. unfold is_zero in Zq. clear - HO K Zq. ord HO.
  Qed.
  Lemma mul_neg_neg u v p : o_le u n_zero = true -> o_le v n_zero = true -> n_mul u v = Ret p -> ok p -> o_le n_zero p = true.
  Proof.
    intros Hu Hv Hp Op. assert (Ou : ok u) by (clear - HO Hu; ord HO). assert (Ov : ok v) by (clear - HO Hv; ord HO).
    destruct (nl_one N HN) as (N1 & N2 & _).
    assert (A : forall s t p, o_le s n_zero = true -> o_le t n_zero = true -> infinite s -> n_mul s t = Ret p -> ok p -> o_le n_zero p = true).
    { clear u v p Hu Hv Hp Op Ou Ov. intros s t p Hs Ht I Hp Op. assert (Ot : ok t) by (clear - HO Ht; ord HO).
      destruct (mul_mone_l t Ot) as (q & Hq & Oq & _ & A). specialize (A Ht). assert (o_le s n_mone = true) as L.
      { destruct (inf_split s (inf_ok s I) I) as [H|H]; [|exact H]. exfalso. clear - HO H N1 Hs. ord HO. }
      pose proof (nl_mul_anti N HN _ _ _ _ _ L Ht Hp Hq Op Oq) as K. clear - HO K A. ord HO. }
    destruct (inf_dec u Ou) as [Iu|Fu]; [now apply (A u v)|]. destruct (inf_dec v Ov) as [Iv|Fv]; [rewrite (nl_mul_comm N HN) in Hp; now apply (A v u)|].
    destruct (mul_zero_l v Ov Fv) as (q & Hq & Zq & Oq). pose proof (nl_mul_anti N HN _ _ _ _ _ Hu Hv Hp Hq Op Oq) as K. unfold is_zero in Zq. clear - HO K Zq. ord HO.
  Qed.

  (** ** [_multiply_0] *)
  Lemma nan_b_ok v : nan_b v = true <-> ~ ok v.
  Proof. rewrite <- (nan_not_ok HO). unfold nan_b, nan. now rewrite negb_true_iff. Qed.
  Lemma exceptional_dec u v : ok u -> ok v -> exceptional u v \/ ~ exceptional u v.
  Proof.
    intros Ou Ov. destruct (mul_total u v) as (p & Hp). pose proof (nl_mul_nan N HN u v p Ou Ov Hp) as K. fold (exceptional u v) in K.
    unfold exceptional, is_zero. rewrite <- !inf_b_iff. destruct (inf_b u), (inf_b v), (o_eq u n_zero), (o_eq v n_zero); intuition discriminate.
  Qed.
  Lemma mul0_spec u v : ok u -> ok v -> exists z, mul0 u v = Ret z /\ ok z /\ times0 u v z.
  Proof.
    intros Ou Ov. unfold mul0. destruct (mul_total u v) as (p & Hp). rewrite Hp. cbn [bind]. pose proof (nl_mul_nan N HN u v p Ou Ov Hp) as K. fold (exceptional u v) in K.
    eexists. split; [reflexivity|]. unfold times0. destruct (nan_b p) eqn:E; cbn [andb].
    - apply nan_b_ok in E. assert (exceptional u v) as X by (destruct (exceptional_dec u v Ou Ov); tauto).
      replace (_ || _) with true; [split; [exact zero_zero|left; auto]|]. symmetry. apply orb_true_iff. rewrite !andb_true_iff, !inf_b_iff. unfold exceptional, is_zero in X. tauto.
    - assert (ok p) as Op by (destruct (ok_dec HN p) as [H|H]; [exact H|apply (nan_not_ok HO), nan_b_ok in H; congruence]). split; [exact Op|]. right. rewrite Hp. tauto.
  Qed.
  Lemma mul0_times0 u v z : ok u -> ok v -> (mul0 u v = Ret z <-> times0 u v z).
  Proof.
    intros Ou Ov. destruct (mul0_spec u v Ou Ov) as (z' & E & _ & T). rewrite E. split; [intros H; now injection H as <-|].
    intros T'. f_equal. destruct T as [[A ->]|[A B]], T' as [[A' ->]|[A' B']]; try tauto; congruence.
  Qed.
  Lemma mul0_comm u v : mul0 u v = mul0 v u.
  Proof. unfold mul0. rewrite (nl_mul_comm N HN u v). destruct (n_mul v u); cbn [bind]; auto. now rewrite orb_comm. Qed.

  Ltac sp H := let A := fresh "A" in let B := fresh "B" in destruct H as [[[[A B]|[A B]] ->]|[A B]].
  Lemma mul0_mono u u' c p p' : o_le u u' = true -> o_le n_zero c = true -> mul0 u c = Ret p -> mul0 u' c = Ret p' -> o_le p p' = true.
  Proof.
    intros L Hc E E'. assert (Ou : ok u) by (clear - HO L; ord HO). assert (Ou' : ok u') by (clear - HO L; ord HO). assert (Oc : ok c) by (clear - HO Hc; ord HO).
    pose proof (proj1 (mul0_times0 u c p Ou Oc) E) as T. pose proof (proj1 (mul0_times0 u' c p' Ou' Oc) E') as T'.
    assert (Z : forall s t q, ok s -> ok t -> ~ exceptional s t -> n_mul s t = Ret q -> is_zero t -> o_le n_zero q = true /\ o_le q n_zero = true).
    { intros s t q Os Ot X Hq Zt. assert (ok q) as Oq by (apply (nl_mul_nan N HN s t q Os Ot Hq); exact X).
      pose proof (zero_product s t q (or_intror Zt) Os Ot Hq Oq) as K. unfold is_zero in K. split; clear - HO K; ord HO. }
    assert (G : forall s t q, ok s -> ok t -> ~ exceptional s t -> n_mul s t = Ret q -> ok q).
    { intros s t q Os Ot X Hq. apply (nl_mul_nan N HN s t q Os Ot Hq). exact X. }
    sp T; sp T'; try exact zero_zero.
    - apply (Z u' c p'); auto.
    - apply (mul_pos_pos u' c); eauto. unfold is_zero in A. clear - HO A L. ord HO.
    - apply (Z u c p); auto.
    - rewrite (nl_mul_comm N HN) in B. apply (mul_pos_neg c u); auto; [unfold is_zero in A0; clear - HO A0 L; ord HO|]. rewrite (nl_mul_comm N HN) in B. eauto.
    - exact (nl_mul_mono N HN _ _ _ _ _ L Hc B B0 (G _ _ _ Ou Oc A B) (G _ _ _ Ou' Oc A0 B0)).
  Qed.
  Lemma mul0_anti u u' c p p' : o_le u u' = true -> o_le c n_zero = true -> mul0 u c = Ret p -> mul0 u' c = Ret p' -> o_le p' p = true.
  Proof.
    intros L Hc E E'. assert (Ou : ok u) by (clear - HO L; ord HO). assert (Ou' : ok u') by (clear - HO L; ord HO). assert (Oc : ok c) by (clear - HO Hc; ord HO).
    pose proof (proj1 (mul0_times0 u c p Ou Oc) E) as T. pose proof (proj1 (mul0_times0 u' c p' Ou' Oc) E') as T'.
    assert (G : forall s t q, ok s -> ok t -> ~ exceptional s t -> n_mul s t = Ret q -> ok q).
    { intros s t q Os Ot X Hq. apply (nl_mul_nan N HN s t q Os Ot Hq). exact X. }
    assert (Z : forall s t q, ok s -> ok t -> ~ exceptional s t -> n_mul s t = Ret q -> is_zero t -> o_le n_zero q = true /\ o_le q n_zero = true).
    { intros s t q Os Ot X Hq Zt. pose proof (zero_product s t q (or_intror Zt) Os Ot Hq (G s t q Os Ot X Hq)) as K. unfold is_zero in K. split; clear - HO K; ord HO. }
    sp T; sp T'; try exact zero_zero.
    - apply (Z u' c p'); auto.
    - apply (mul_pos_neg u' c); eauto. unfold is_zero in A. clear - HO A L. ord HO.
    - apply (Z u c p); auto.
    - apply (mul_neg_neg u c); eauto. unfold is_zero in A0. clear - HO A0 L. ord HO.
    - exact (nl_mul_anti N HN _ _ _ _ _ L Hc B B0 (G _ _ _ Ou Oc A B) (G _ _ _ Ou' Oc A0 B0)).
  Qed.
  Lemma mul0_between u1 u u2 c p1 p2 : ok c -> o_le u1 u = true -> o_le u u2 = true -> mul0 u1 c = Ret p1 -> mul0 u2 c = Ret p2 -> exists p, mul0 u c = Ret p /\ between p p1 p2.
  Proof.
    intros Oc L1 L2 E1 E2. destruct (mul0_spec u c ltac:(clear - HO L1; ord HO) Oc) as (p & E & _ & _). exists p. split; [exact E|].
    destruct (sign_cases HN c Oc) as [H|H]; [left|right]; split; eauto using mul0_mono, mul0_anti.
  Qed.
  Lemma mul0_bimonotone x y : bimonotone mul0 x y.
  Proof.
    split.
    - intros u1 u u2 c p1 p2 _ _ Hc L1 L2 E1 E2. exact (mul0_between u1 u u2 c p1 p2 (ael_ok HO _ _ Hc) L1 L2 E1 E2).
    - intros c u1 u u2 p1 p2 Hc _ _ L1 L2 E1 E2. rewrite mul0_comm in E1, E2. destruct (mul0_between u1 u u2 c p1 p2 (ael_ok HO _ _ Hc) L1 L2 E1 E2) as (p & E & B).
      exists p. rewrite mul0_comm. auto.
  Qed.
  Lemma mul0_no_nan x y : ~ nan_pair mul0 x y.
  Proof.
    intros (u & v & s & Hu & Hv & E & Hs). destruct (mul0_spec u v (ael_ok HO _ _ Hu) (ael_ok HO _ _ Hv)) as (z & E' & Oz & _). rewrite E in E'. injection E' as <-.
    now apply (nan_not_ok HO) in Hs.
  Qed.

  (** ** hulls as scalars or intervals *)
  Definition ahull P e : Prop := (forall v, P v -> ael e v) /\ (exists v, P v /\ o_eq v (alower e) = true) /\ (exists v, P v /\ o_eq v (aupper e) = true).
  Lemma ahull_proper P e : ahull P e -> aproper e.
  Proof. intros (A & (v & V & _) & _). exact (ael_aproper HO e v (A v V)). Qed.
  Lemma ahull_ext P Q e : (forall v, P v <-> Q v) -> ahull P e -> ahull Q e.
  Proof. intros E (A & (v & V & V') & (w & W & W')). split; [intros u Hu; now apply A, E|]. split; [exists v|exists w]; rewrite <- E; auto. Qed.
  Lemma ahull_self x : aproper x -> ahull (ael x) x.
  Proof.
    intros H. split; [auto|]. split; [exists (alower x)|exists (aupper x)]; (split; [auto using (ael_lower HO), (ael_upper HO)|]);
      unfold aproper in H; clear - HO H; ord HO.
  Qed.

  Lemma amul0_ok y l : aproper y -> aproper l -> exists e, amul0 y l = Ret e /\ ahull (img2 mul0 y l) e.
  Proof.
    intros Py Pl. pose proof (corners_ok HN mul0 y l Py Pl (mul0_bimonotone y l) (mul0_no_nan y l)) as [D H].
    assert (T : defined2 mul0 y l).
    { intros u v Hu Hv. destruct (mul0_spec u v (ael_ok HO _ _ Hu) (ael_ok HO _ _ Hv)) as (z & E & _). eauto. }
    destruct (D T) as (Z & E). destruct (H Z E) as (_ & _ & K). specialize (K (mul0_no_nan y l)).
    destruct y as [v|Y], l as [w|L]; cbn [amul0 alower aupper] in *.
    - destruct (mul0_spec v w Py Pl) as (z & Ez & Oz & _). rewrite Ez in *. cbn [bind] in *. eexists. split; [reflexivity|].
      unfold hull2 in E. apply (mk_iff) in E as [-> _]. assert (S : omin z z = z /\ omax z z = z) by (unfold omin, omax; destruct (o_lt z z); auto). destruct S as [S1 S2]. rewrite S1, S2 in K. exact K.
    - destruct (mul0 v (lo L)) as [z1| | | |]; try discriminate. cbn [bind] in *. destruct (mul0 v (hi L)) as [z2| | | |]; try discriminate. cbn [bind] in *. rewrite E. cbn [bind]. eexists. split; [reflexivity|exact K].
    - destruct (mul0 (lo Y) w) as [z1| | | |]; try discriminate. cbn [bind] in *. destruct (mul0 (hi Y) w) as [z2| | | |]; try discriminate. cbn [bind] in *. rewrite E. cbn [bind]. eexists. split; [reflexivity|exact K].
    - destruct (mul0 (lo Y) (lo L)) as [z1| | | |]; try discriminate. cbn [bind] in *. destruct (mul0 (lo Y) (hi L)) as [z2| | | |]; try discriminate. cbn [bind] in *.
      destruct (mul0 (hi Y) (lo L)) as [z3| | | |]; try discriminate. cbn [bind] in *. destruct (mul0 (hi Y) (hi L)) as [z4| | | |]; try discriminate. cbn [bind] in *.
      rewrite E. cbn [bind]. eexists. split; [reflexivity|exact K].
  Qed.
  (** the second factor may be given by a set with the same hull *)
  Lemma mul0_eq b u v p : ok b -> o_eq u v = true -> mul0 b u = Ret p -> exists q, mul0 b v = Ret q /\ o_eq q p = true.
  Proof.
    intros Ob E H. rewrite mul0_comm in H. destruct (mul0_between u v u b p p Ob) as (q & Q & B); auto; [clear - HO E; ord HO|clear - HO E; ord HO|].
    exists q. rewrite mul0_comm. split; [exact Q|]. destruct B as [[A B]|[A B]]; clear - HO A B; ord HO.
  Qed.
  Lemma amul0_hull P y l : aproper y -> ahull P l -> exists e, amul0 y l = Ret e /\ ahull (fun z => exists b p, ael y b /\ P p /\ times0 b p z) e.
  Proof.
    intros Py Hl. pose proof (ahull_proper P l Hl) as Pl. destruct (amul0_ok y l Py Pl) as (e & E & Q & R & S). exists e. split; [exact E|].
    destruct Hl as (A & (s & Ps & Es) & (t & Pt & Et)).
    assert (IN : forall b p z, ael y b -> P p -> (mul0 b p = Ret z <-> times0 b p z)).
    { intros b p z Hb Hp. apply mul0_times0; [exact (ael_ok HO _ _ Hb)|exact (ael_ok HO _ _ (A p Hp))]. }
    assert (C : forall b z, ael y b -> forall d, ael l d -> mul0 b d = Ret z ->
      exists z1 z2, (exists p, P p /\ mul0 b p = Ret z1) /\ (exists p, P p /\ mul0 b p = Ret z2) /\ between z z1 z2 /\ ael e z1 /\ ael e z2).
    { intros b z Hb d Hd Hz. pose proof (ael_ok HO _ _ Hb) as Ob.
      destruct (mul0_spec b s Ob (ael_ok HO _ _ (A s Ps))) as (z1 & E1 & _). destruct (mul0_spec b t Ob (ael_ok HO _ _ (A t Pt))) as (z2 & E2 & _).
      exists z1, z2. split; [eauto|]. split; [eauto|]. split; [|split; apply Q; [exists b, s|exists b, t]; auto].
      rewrite mul0_comm in E1, E2, Hz. destruct Hd as [D1 D2].
      destruct (mul0_between s d t b z1 z2 Ob) as (p & Ep & B); auto; [clear - HO D1 Es; ord HO|clear - HO D2 Et; ord HO|]. rewrite Ep in Hz. now injection Hz as <-. }
    split; [intros z (b & p & Hb & Hp & T); apply Q; exists b, p; split; [exact Hb|]; split; [exact (A p Hp)|now apply IN]|]. split.
    - destruct R as (z & (b & d & Hb & Hd & Hz) & Ez). destruct (C b z Hb d Hd Hz) as (z1 & z2 & (p1 & P1 & E1) & (p2 & P2 & E2) & [[B _]|[B _]] & [I1 _] & [I2 _]).
      + exists z1. split; [exists b, p1; split; [exact Hb|]; split; [exact P1|now apply IN]|]. clear - HO B Ez I1. ord HO.
      + exists z2. split; [exists b, p2; split; [exact Hb|]; split; [exact P2|now apply IN]|]. clear - HO B Ez I2. ord HO.
    - destruct S as (z & (b & d & Hb & Hd & Hz) & Ez). destruct (C b z Hb d Hd Hz) as (z1 & z2 & (p1 & P1 & E1) & (p2 & P2 & E2) & [[_ B]|[_ B]] & [_ I1] & [_ I2]).
      + exists z2. split; [exists b, p2; split; [exact Hb|]; split; [exact P2|now apply IN]|]. clear - HO B Ez I2. ord HO.
      + exists z1. split; [exists b, p1; split; [exact Hb|]; split; [exact P1|now apply IN]|]. clear - HO B Ez I1. ord HO.
  Qed.

  (** increasing functions *)
  Lemma increasing_hull (D : N -> Prop) (g : N -> N) P e f : increasing D g -> (forall v, ael e v -> D v) -> ahull P e ->
    alower f = g (alower e) -> aupper f = g (aupper e) -> ahull (fun z => exists p, P p /\ z = g p) f.
  Proof.
    intros I HD He El Eu. pose proof (ahull_proper P e He) as Pe. destruct He as (A & (s & Ps & Es) & (t & Pt & Et)).
    assert (Dl := HD _ (ael_lower HO e Pe)). assert (Du := HD _ (ael_upper HO e Pe)).
    assert (B : forall p, P p -> o_le (g (alower e)) (g p) = true /\ o_le (g p) (g (aupper e)) = true).
    { intros p Hp. pose proof (HD _ (A p Hp)) as Dp. destruct (A p Hp). split; apply I; auto. }
    split; [intros z (p & Hp & ->); unfold ael; rewrite El, Eu; auto|]. split.
    - exists (g s). split; [eauto|]. rewrite El. destruct (B s Ps) as [B1 _].
      assert (o_le (g s) (g (alower e)) = true) as B2 by (apply I; auto; clear - HO Es; ord HO). clear - HO B1 B2. ord HO.
    - exists (g t). split; [eauto|]. rewrite Eu. destruct (B t Pt) as [_ B1].
      assert (o_le (g (aupper e)) (g t) = true) as B2 by (apply I; auto; clear - HO Et; ord HO). clear - HO B1 B2. ord HO.
  Qed.
  Lemma alog_hull dbg P m : increasing nonneg (m_log M) -> ahull P m -> nonneg (alower m) -> exists l, alog M dbg m = Ret l /\ ahull (fun z => exists p, P p /\ z = m_log M p) l.
  Proof.
    intros I Hm H. pose proof (ahull_proper P m Hm) as Pm. pose proof (fun l => increasing_hull nonneg (m_log M) P m l I) as K.
    assert (D : forall v, ael m v -> nonneg v) by (intros v [V _]; unfold nonneg in *; clear - HO V H; ord HO). specialize (fun l => K l D Hm).
    pose proof (D _ (ael_upper HO m Pm)) as Hu. unfold nonneg in H, Hu. unfold aproper in Pm. destruct m as [v|X]; cbn [alog alower aupper] in *.
    - unfold slog. rewrite H. replace (expects_debug dbg true) with (Ret tt) by (now destruct dbg). cbn [bind]. eexists. split; [reflexivity|]. now apply K.
    - unfold ilog. rewrite (dbg_assigned HO) by auto. cbn [bind]. unfold slog. rewrite H, Hu. replace (expects_debug dbg true) with (Ret tt) by (now destruct dbg). cbn [bind].
      rewrite (mk_proper HO) by (apply I; auto). cbn [bind]. eexists. split; [reflexivity|]. now apply K.
  Qed.
  Lemma aexp_hull dbg P m : increasing anywhere (m_exp M) -> ahull P m -> exists e, aexp M dbg m = Ret e /\ ahull (fun z => exists p, P p /\ z = m_exp M p) e.
  Proof.
    intros I Hm. pose proof (ahull_proper P m Hm) as Pm. pose proof (fun l => increasing_hull anywhere (m_exp M) P m l I (fun _ _ => Logic.I) Hm) as K.
    unfold aproper in Pm. destruct m as [v|X]; cbn [aexp alower aupper] in *.
    - unfold sexp. cbn [bind]. eexists. split; [reflexivity|]. now apply K.
    - unfold iexp. rewrite (dbg_assigned HO) by exact Pm. cbn [bind]. unfold sexp. cbn [bind]. rewrite (mk_proper HO) by (apply I; unfold anywhere; auto). cbn [bind].
      eexists. split; [reflexivity|]. now apply K.
  Qed.

  (** [max(x, 0)], [max(-x, 0)] *)
  Lemma amax0_bounds dbg x : aproper x -> exists m, amax0 dbg x = Ret m /\ alower m = omax n_zero (alower x) /\ aupper m = omax n_zero (aupper x).
  Proof.
    intros P. pose proof zero_zero as Z0. unfold aproper in P. destruct x as [v|X]; cbn [amax0 alower aupper] in *; [eauto|].
    unfold imax. cbn [aassigned alower aupper andb]. rewrite (proper_assigned HO X P). replace (expects_debug dbg true) with (Ret tt) by (now destruct dbg). cbn [bind].
    rewrite (mk_proper HO); [cbn [bind]; eauto|]. assert (o_le (hi X) (omax n_zero (hi X)) = true) as A by (apply (omax_r HO); [exact Z0|clear - HO P; ord HO]).
    apply omax_lub; [apply (omax_l HO); [exact Z0|clear - HO P; ord HO]|]. clear - HO A P. ord HO.
  Qed.
  Lemma omax0_pos v : o_le n_zero v = true -> o_eq v (omax n_zero v) = true.
  Proof. intros H. unfold omax. destruct (o_lt n_zero v) eqn:E; clear - HO H E; ord HO. Qed.
  Lemma omax0_neg v : o_le v n_zero = true -> o_eq n_zero (omax n_zero v) = true.
  Proof. intros H. unfold omax. destruct (o_lt n_zero v) eqn:E; clear - HO H E; ord HO. Qed.
  Lemma omax0_nonneg v : ok v -> nonneg (omax n_zero v).
  Proof. intros H. apply (omax_l HO); [exact zero_zero|exact H]. Qed.
  (** A set with hull [x] that has a zero if [x] has: its non-negative part. *)
  Lemma amax0_hull dbg P x : ahull P x -> (o_le (alower x) n_zero = true -> o_le n_zero (aupper x) = true -> exists v, P v /\ is_zero v) -> o_le n_zero (aupper x) = true ->
    exists m, amax0 dbg x = Ret m /\ nonneg (alower m) /\ ahull (fun v => P v /\ nonneg v) m.
  Proof.
    intros Hx HZ Hu. pose proof (ahull_proper P x Hx) as Px. destruct (amax0_bounds dbg x Px) as (m & -> & El & Eu). exists m. split; [reflexivity|].
    destruct Hx as (A & (s & Ps & Es) & (t & Pt & Et)). unfold aproper in Px. assert (Ol : ok (alower x)) by (clear - HO Px; ord HO). assert (Ou : ok (aupper x)) by (clear - HO Px; ord HO).
    split; [rewrite El; now apply omax0_nonneg|]. split; [|split].
    - intros v [Hv Nv]. destruct (A v Hv) as [V1 V2]. unfold ael. rewrite El, Eu. split; [now apply omax_lub|].
      pose proof (omax_r HO n_zero (aupper x) zero_zero Ou) as K. clear - HO V2 K. ord HO.
    - rewrite El. destruct (sign_cases HN (alower x) Ol) as [H|H].
      + exists s. unfold nonneg. pose proof (omax0_pos _ H) as K. split; [split; [exact Ps|]; clear - HO H Es; ord HO|]. clear - HO K Es. ord HO.
      + destruct (HZ H Hu) as (v & Pv & Zv). exists v. unfold nonneg. unfold is_zero in Zv. pose proof (omax0_neg _ H) as K. split; [split; [exact Pv|]; clear - HO Zv; ord HO|]. clear - HO K Zv. ord HO.
    - rewrite Eu. exists t. unfold nonneg. pose proof (omax0_pos _ Hu) as K. split; [split; [exact Pt|]; clear - HO Hu Et; ord HO|]. clear - HO K Et. ord HO.
  Qed.
  Lemma aneg_hull dbg x : aproper x -> exists nx, aneg dbg x = Ret nx /\ ahull (fun z => exists a, ael x a /\ n_neg a = Ret z) nx.
  Proof.
    intros Px. destruct x as [v|X]; cbn [aneg].
    - destruct (neg_total v) as (r & Hr). rewrite Hr. cbn [bind]. eexists. split; [reflexivity|]. pose proof (nl_neg_ok N HN v r Px Hr) as Or.
      assert (K : forall a z, ael (Sc v) a -> n_neg a = Ret z -> o_le r z = true /\ o_le z r = true).
      { intros a z [A1 A2] Hz. cbn in A1, A2. split; [exact (nl_neg_anti N HN _ _ _ _ A2 Hz Hr)|exact (nl_neg_anti N HN _ _ _ _ A1 Hr Hz)]. }
      split; [intros z (a & Ha & Hz); now apply (K a)|]. cbn [alower aupper]. split; exists r; (split; [exists v; split; [split; exact Px|exact Hr]|]); clear - HO Or; ord HO.
    - destruct (neg_hull HN dbg X Px) as (D & H & _). destruct (D (fun v _ => neg_total v)) as (Z & E). rewrite E. cbn [bind]. eexists. split; [reflexivity|]. exact (proj2 (H Z E)).
  Qed.
  Lemma neg_max_hull dbg x : aproper x -> o_le (alower x) n_zero = true ->
    exists nx m, aneg dbg x = Ret nx /\ amax0 dbg nx = Ret m /\ nonneg (alower m) /\ ahull (fun c => exists a, ael x a /\ o_le a n_zero = true /\ n_neg a = Ret c) m.
  Proof.
    intros Px Hl. destruct (aneg_hull dbg x Px) as (nx & E & H). exists nx.
    assert (Z0 : forall a z, n_neg a = Ret z -> ok a -> (o_le n_zero z = true <-> o_le a n_zero = true)).
    { intros a z Hz Oa. split; [|apply (neg_sign a z Hz)]. intros K. destruct (nl_neg_invol N HN a z Oa Hz) as (w & Hw & Ew). destruct (neg_sign z w Hw) as [S _]. specialize (S K). clear - HO S Ew. ord HO. }
    assert (AL : ael x (alower x)) by (apply (ael_lower HO); exact Px).
    assert (NU : o_le n_zero (aupper nx) = true).
    { destruct (neg_total (alower x)) as (z & Hz). destruct (proj1 H z) as [_ K]; [eauto|]. pose proof (proj2 (neg_sign _ _ Hz) Hl) as S. clear - HO K S. ord HO. }
    destruct (amax0_hull dbg _ nx H) as (m & Em & Nm & Hm); [|exact NU|].
    - intros L _. destruct H as (_ & (z & (a & Ha & Hz) & Ez) & _). assert (Oa := ael_ok HO _ _ Ha).
      assert (o_le n_zero a = true) as K. { destruct (nl_neg_invol N HN a z Oa Hz) as (w & Hw & Ew). destruct (neg_sign z w Hw) as [_ S]. specialize (S ltac:(clear - HO Ez L; ord HO)). clear - HO S Ew. ord HO. }
      destruct (neg_total n_zero) as (z0 & Hz0). exists z0. split.
      + exists n_zero. split; [|exact Hz0]. destruct Ha as [_ A2]. split; [exact Hl|clear - HO K A2; ord HO].
      + apply (nl_neg_zero N HN n_zero z0); [unfold is_zero; pose proof zero_zero as Q; clear - HO Q; ord HO|exact Hz0].
    - exists m. split; [exact E|]. split; [exact Em|]. split; [exact Nm|]. revert Hm. apply ahull_ext. intros c. unfold nonneg. split.
      + intros [(a & Ha & Hc) K]. exists a. split; [exact Ha|]. split; [|exact Hc]. apply (Z0 a c Hc (ael_ok HO _ _ Ha)). exact K.
      + intros (a & Ha & K & Hc). split; [eauto|]. apply (Z0 a c Hc (ael_ok HO _ _ Ha)). exact K.
  Qed.

  (** the sign of the result *)
  Lemma asign_hull dbg P e (n : Z) : ahull P e -> exists f, asign dbg (if Z.eqb (Z.rem n 2) 0 then n_one else n_mone) e = Ret f
    /\ ahull (fun v => exists w, P w /\ if Z.even n then v = w else n_neg w = Ret v) f.
  Proof.
    intros He. pose proof (ahull_proper P e He) as Pe.
    assert (EV : Z.eqb (Z.rem n 2) 0 = Z.even n).
    { apply eq_iff_eq_true. rewrite Z.eqb_eq, Z.even_spec. split.
      - intros H. exists (Z.quot n 2). pose proof (Z.quot_rem' n 2). lia.
      - intros [k ->]. rewrite Z.mul_comm. apply Z.rem_mul. lia. }
    rewrite EV. set (t := if Z.even n then positive_sign else negative_sign).
    assert (SV : (if Z.even n then n_one else n_mone) = (sign_value t : N)) by (unfold t; now destruct (Z.even n)). rewrite SV.
    assert (ST : forall w v, (if Z.even n then v = w else n_neg w = Ret v) <-> sign_times t w = Ret v).
    { intros w v. unfold t. destruct (Z.even n); cbn; [split; [intros ->; reflexivity|intros K; now injection K]|reflexivity]. }
    assert (TZ : t <> zero_sign) by (unfold t; now destruct (Z.even n)).
    assert (exists f, asign dbg (sign_value t) e = Ret f /\ ahull (fun v => exists w, ael e w /\ sign_times t w = Ret v) f) as (f & Ef & Hf).
    { destruct e as [u|E]; cbn [asign].
      - destruct (mul_total (sign_value t) u) as (r & Hr). rewrite Hr. cbn [bind]. eexists. split; [reflexivity|].
        assert (Ou : ok u) by exact Pe. destruct (sign_product_exact HN t u Ou) as (_ & _ & B); [tauto|]. destruct (B r Hr) as (z & Hz).
        assert (ER : o_eq r z = true). { destruct (sign_product_exact HN t u Ou) as (_ & C & _); [tauto|]. destruct (C z Hz) as (p & Hp & Ep). unfold sign_mul_scalar in Hp. rewrite Hr in Hp. now injection Hp as <-. }
        assert (EQ : forall w v, ael (Sc u) w -> sign_times t w = Ret v -> o_eq v r = true).
        { intros w v [W1 W2] Hv. cbn in W1, W2. clear - HN HO W1 W2 Hv Hz ER TZ. destruct t; cbn in Hv, Hz; [|tauto|].
          - pose proof (nl_neg_anti N HN _ _ _ _ W1 Hz Hv) as A. pose proof (nl_neg_anti N HN _ _ _ _ W2 Hv Hz) as B. clear - HO A B ER. ord HO.
          - injection Hv as <-. injection Hz as <-. clear - HO W1 W2 ER. ord HO. }
        assert (Oz := EQ u z ltac:(split; exact Ou) Hz). split; [intros v (w & Hw & Hv); specialize (EQ w v Hw Hv); split; cbn; clear - HO EQ; ord HO|].
        cbn [alower aupper]. split; exists z; (split; [exists u; split; [split; exact Ou|exact Hz]|exact Oz]).
      - destruct (sign_mul_ivl_hull HN dbg t E Pe) as [[A B] _]. destruct (proj1 A (fun _ v _ => neg_total v)) as (Z & EZ). destruct (B Z EZ) as [_ K].
        unfold sign_mul_ivl in EZ. rewrite EZ. cbn [bind]. eexists. split; [reflexivity|]. apply K. tauto. }
    exists f. split; [exact Ef|]. destruct Hf as (A & (v1 & (w1 & W1 & V1) & E1) & (v2 & (w2 & W2 & V2) & E2)).
    assert (NM : forall a b p q, o_le a b = true -> sign_times t a = Ret p -> sign_times t b = Ret q -> if Z.even n then o_le p q = true else o_le q p = true).
    { intros a b p q L Hp Hq. unfold t in Hp, Hq. destruct (Z.even n); cbn in Hp, Hq; [injection Hp as <-; injection Hq as <-; exact L|]. exact (nl_neg_anti N HN _ _ _ _ L Hp Hq). }
    assert (TT : forall a, exists p, sign_times t a = Ret p) by (intros a; unfold t; destruct (Z.even n); cbn; [eauto|apply neg_total]).
    destruct He as (IN & (s & Ps & Es) & (r & Pr & Er)). destruct (TT s) as (ps & Hs), (TT r) as (pr & Hr).
    assert (As := A ps ltac:(eauto)). assert (Ar := A pr ltac:(eauto)). destruct As as [As1 As2], Ar as [Ar1 Ar2].
    assert (L1 : forall w, ael e w -> o_le s w = true /\ o_le w r = true) by (intros w [Q1 Q2]; clear - HO Q1 Q2 Es Er; split; ord HO).
    pose proof (L1 w1 W1) as [S1 S2]. pose proof (L1 w2 W2) as [S3 S4].
    pose proof (NM _ _ _ _ S1 Hs V1) as K1. pose proof (NM _ _ _ _ S2 V1 Hr) as K2. pose proof (NM _ _ _ _ S3 Hs V2) as K3. pose proof (NM _ _ _ _ S4 V2 Hr) as K4.
    split; [intros v (w & Hw & Hv); apply A; exists w; split; [now apply IN|now apply ST]|].
    destruct (Z.even n) eqn:EN; split.
    - exists ps. split; [exists s; split; [exact Ps|now apply ST]|]. clear - HO K1 E1 As1. ord HO.
    - exists pr. split; [exists r; split; [exact Pr|now apply ST]|]. clear - HO K4 E2 Ar2. ord HO.
    - exists pr. split; [exists r; split; [exact Pr|now apply ST]|]. clear - HO K2 E1 Ar1. ord HO.
    - exists ps. split; [exists s; split; [exact Ps|now apply ST]|]. clear - HO K3 E2 As2. ord HO.
  Qed.

  (** assignment of the result *)
  Lemma aassign_default_hull P e : ahull P e -> exists Z, aassign ivl_default e = Ret Z /\ is_hull P Z.
  Proof.
    intros He. pose proof (ahull_proper P e He) as Pe. unfold aproper in Pe. destruct He as (A & (s & Ps & Es) & (t & Pt & Et)).
    assert (Ol : ok (alower e)) by (clear - HO Pe; ord HO). assert (Ou : ok (aupper e)) by (clear - HO Pe; ord HO).
    assert (T : o_eq (alower e) (omin n_top (alower e)) = true).
    { pose proof (nl_top N HN _ Ol) as K. unfold omin. destruct (o_lt (alower e) n_top) eqn:E; clear - HO K E Ol; ord HO. }
    assert (B : o_eq (aupper e) (omax n_bot (aupper e)) = true).
    { pose proof (nl_bot N HN _ Ou) as K. unfold omax. destruct (o_lt n_bot (aupper e)) eqn:E; clear - HO K E Ou; ord HO. }
    assert (H : aassign ivl_default e = Ret (Ivl (omin n_top (alower e)) (omax n_bot (aupper e)))).
    { destruct e as [v|X]; cbn [aassign alower aupper]; [reflexivity|]. unfold iassign. rewrite (proper_assigned HO X Pe). reflexivity. }
    rewrite H. eexists. split; [reflexivity|]. split; [|split]; cbn [lo hi].
    - intros v Hv. destruct (A v Hv) as [V1 V2]. split; cbn [lo hi]; [clear - HO V1 T|clear - HO V2 B]; ord HO.
    - exists s. split; [exact Ps|]. clear - HO Es T. ord HO.
    - exists t. split; [exact Pt|]. clear - HO Et B. ord HO.
  Qed.
  Lemma aassign_hull P Q Z e : is_hull Q Z -> ahull P e -> exists Z', aassign Z e = Ret Z' /\ is_hull (fun v => Q v \/ P v) Z'.
  Proof.
    intros HZ He. pose proof (ahull_proper P e He) as Pe. pose proof (is_hull_proper HO _ _ HZ) as PZ. unfold aproper in Pe. unfold proper in PZ.
    destruct He as (A & (s & Ps & Es) & (t & Pt & Et)), HZ as (A' & (s' & Ps' & Es') & (t' & Pt' & Et')).
    assert (H : aassign Z e = Ret (assign_bounds Z (alower e) (aupper e))).
    { destruct e as [v|X]; cbn [aassign alower aupper]; [reflexivity|]. unfold iassign. rewrite (proper_assigned HO X Pe). reflexivity. }
    rewrite H. eexists. split; [reflexivity|]. unfold assign_bounds. split; [|split]; cbn [lo hi].
    - intros v [Hv|Hv]; [destruct (A' v Hv) as [V1 V2]|destruct (A v Hv) as [V1 V2]]; split; cbn [lo hi]; unfold omin, omax;
        match goal with |- context [if ?c then _ else _] => destruct c eqn:E end; clear - HO V1 V2 E PZ Pe; ord HO.
    - unfold omin. destruct (o_lt (alower e) (lo Z)) eqn:E; [exists s|exists s']; auto.
    - unfold omax. destruct (o_lt (hi Z) (aupper e)) eqn:E; [exists t|exists t']; auto.
  Qed.
  Lemma nonneg_part dbg x : aproper x -> possibly_nonneg dbg x = Ret (o_le n_zero (aupper x)).
  Proof.
    intros P. pose proof zero_zero as Z0. destruct x as [v|X]; cbn [possibly_nonneg aupper] in *; [reflexivity|].
    unfold rel_geq. rewrite (rel_pre_ok HO dbg (Iv X) (Sc n_zero)) by auto. cbn [bind]. f_equal. apply eq_iff_eq_true. rewrite possibly_iff.
    destruct (compare_leq_exact HO (Sc (n_zero : N)) (Iv X) Z0 P) as [_ Q]. rewrite (Q true). split.
    - intros (u & w & [U1 U2] & [W1 W2] & E). cbn in *. clear - HO U1 E W2. ord HO.
    - intros H. exists n_zero, (hi X). split; [now split|]. split; [apply (ael_upper HO (Iv X)); exact P|exact H].
  Qed.
  Lemma neg_part dbg x : aproper x -> possibly_neg dbg x = Ret (o_lt (alower x) n_zero).
  Proof.
    intros P. pose proof zero_zero as Z0. destruct x as [v|X]; cbn [possibly_neg alower] in *; [reflexivity|].
    unfold rel_lt. rewrite (rel_pre_ok HO dbg (Iv X) (Sc n_zero)) by auto. cbn [bind]. f_equal. apply eq_iff_eq_true. rewrite possibly_iff.
    destruct (compare_lt_exact HO (Iv X) (Sc (n_zero : N)) P Z0) as [_ Q]. rewrite (Q true). split.
    - intros (w & u & [W1 W2] & [U1 U2] & E). cbn in *. clear - HO U2 E W1. ord HO.
    - intros H. exists (lo X), n_zero. split; [apply (ael_lower HO (Iv X)); exact P|]. split; [now split|exact H].
  Qed.

  (** ** pow *)
  Section Main.
    Context (IL : increasing nonneg (m_log M)) (IE : increasing anywhere (m_exp M)) (dbg : bool).

    Lemma powers_hull P m y : ahull P m -> nonneg (alower m) -> aproper y ->
      exists l e f, alog M dbg m = Ret l /\ amul0 y l = Ret e /\ aexp M dbg e = Ret f /\ ahull (fun v => exists a b, P a /\ ael y b /\ pow_at M a b v) f.
    Proof.
      intros Hm Nm Py. destruct (alog_hull dbg P m IL Hm Nm) as (l & El & Hl). destruct (amul0_hull _ y l Py Hl) as (e & Ee & He).
      destruct (aexp_hull dbg _ e IE He) as (f & Ef & Hf). exists l, e, f. do 3 (split; [assumption|]). revert Hf. apply ahull_ext. intros v. unfold pow_at. split.
      - intros (z & (b & p & Hb & (a & Ha & ->) & T) & ->). exists a, b. eauto 6.
      - intros (a & b & Ha & Hb & z & T & ->). exists z. split; [|reflexivity]. exists b, (m_log M a). eauto.
    Qed.
    Lemma nonneg_branch x y : aproper x -> aproper y -> o_le n_zero (aupper x) = true ->
      exists Z, (m <- amax0 dbg x ;; l <- alog M dbg m ;; e <- amul0 y l ;; e <- aexp M dbg e ;; aassign ivl_default e) = Ret Z /\ is_hull (nonneg_powers M x y) Z.
    Proof.
      intros Px Py Hu. destruct (amax0_hull dbg _ x (ahull_self x Px)) as (m & -> & Nm & Hm); [|exact Hu|].
      - intros L _. exists n_zero. split; [split; assumption|]. unfold is_zero. pose proof zero_zero as K. clear - HO K. ord HO.
      - cbn [bind]. destruct (powers_hull _ m y Hm Nm Py) as (l & e & f & -> & Ee & Ef & Hf). cbn [bind]. rewrite Ee. cbn [bind]. rewrite Ef. cbn [bind].
        destruct (aassign_default_hull _ f Hf) as (Z & -> & HZ). exists Z. split; [reflexivity|]. revert HZ. apply is_hull_ext. intros v. unfold nonneg_powers. split.
        + intros (a & b & [A B] & C & D). exists a, b. auto.
        + intros (a & b & A & B & C & D). exists a, b. auto.
    Qed.
    Lemma nonpos_branch x y n : aproper x -> o_lt (alower x) n_zero = true -> ok (alower y) -> o_eq (alower y) (aupper y) = true ->
      exists nx m l e f g, aneg dbg x = Ret nx /\ amax0 dbg nx = Ret m /\ alog M dbg m = Ret l /\ amul0 (Sc (alower y)) l = Ret e /\ aexp M dbg e = Ret f
        /\ asign dbg (if Z.eqb (Z.rem n 2) 0 then n_one else n_mone) f = Ret g /\ ahull (nonpos_powers M n x y) g.
    Proof.
      intros Px Hl Oy Ey. destruct (neg_max_hull dbg x Px ltac:(clear - HO Hl; ord HO)) as (nx & m & E1 & E2 & Nm & Hm).
      destruct (powers_hull _ m (Sc (alower y)) Hm Nm Oy) as (l & e & f & E3 & E4 & E5 & Hf). destruct (asign_hull dbg _ f n Hf) as (g & E6 & Hg).
      exists nx, m, l, e, f, g. do 6 (split; [assumption|]). revert Hg. apply ahull_ext. intros v. unfold nonpos_powers, pow_neg_at.
      assert (AE : forall b, ael (Sc (alower y)) b <-> ael y b) by (intros b; unfold ael; cbn [alower aupper]; split; intros [A B]; clear - HO A B Ey; split; ord HO).
      split.
      - intros (w & (c & b & (a & Ha & La & Hc) & Hb & Hw) & Hv). exists a, b. split; [exact Ha|]. split; [exact La|]. split; [now apply AE|]. exists c, w. auto.
      - intros (a & b & Ha & La & Hb & c & w & Hc & Hw & Hv). exists w. split; [|exact Hv]. exists c, b. split; [eauto|]. split; [now apply AE|exact Hw].
    Qed.

    Theorem ipow_nonneg x y : aproper x -> aproper y -> nonneg (alower x) -> exists Z, ipow M dbg x y = Ret Z /\ is_hull (nonneg_powers M x y) Z.
    Proof.
      intros Px Py Nx. unfold nonneg in Nx. pose proof Px as Q. unfold aproper in Q. assert (Hu : o_le n_zero (aupper x) = true) by (clear - HO Q Nx; ord HO).
      unfold ipow. rewrite (pre_ok HN dbg x y Px Py), (nonneg_part dbg x Px), (neg_part dbg x Px), Hu. cbn [bind].
      destruct (nonneg_branch x y Px Py Hu) as (Z & -> & HZ). cbn [bind]. replace (o_lt (alower x) n_zero) with false by (symmetry; clear - HO Nx; ord HO). eauto.
    Qed.
    Theorem ipow_integer x y n : aproper x -> o_lt (alower x) n_zero = true -> is_integer M n y ->
      exists Z, ipow M dbg x y = Ret Z /\ is_hull (fun v => nonneg_powers M x y v \/ nonpos_powers M n x y v) Z.
    Proof.
      intros Px Hl (Ey & En & Ez). assert (Py : aproper y) by (unfold aproper; clear - HO Ey; ord HO). assert (Oy : ok (alower y)) by (clear - HO Ey; ord HO).
      unfold ipow. rewrite (pre_ok HN dbg x y Px Py), (nonneg_part dbg x Px), (neg_part dbg x Px), Hl. cbn [bind].
      destruct (nonpos_branch x y n Px Hl Oy Ey) as (nx & m & l & e & f & g & E1 & E2 & E3 & E4 & E5 & E6 & Hg).
      destruct (o_le n_zero (aupper x)) eqn:Hu.
      - destruct (nonneg_branch x y Px Py Hu) as (Z & -> & HZ). cbn [bind]. rewrite En. cbn [bind]. rewrite Ey, Ez. cbn [andb]. rewrite E1. cbn [bind]. rewrite E2. cbn [bind]. rewrite E3. cbn [bind].
        rewrite E4. cbn [bind]. rewrite E5. cbn [bind]. rewrite E6. cbn [bind]. exact (aassign_hull _ _ Z g HZ Hg).
      - cbn [bind]. rewrite En. cbn [bind]. rewrite Ey, Ez. cbn [andb]. rewrite E1. cbn [bind]. rewrite E2. cbn [bind]. rewrite E3. cbn [bind].
        rewrite E4. cbn [bind]. rewrite E5. cbn [bind]. rewrite E6. cbn [bind]. destruct (aassign_default_hull _ g Hg) as (Z & -> & HZ). exists Z. split; [reflexivity|].
        revert HZ. apply is_hull_ext. intros v. split; [auto|]. intros [(a & b & [_ A] & B & _)|H]; [|exact H]. exfalso. unfold nonneg in B. clear - HO A B Hu. ord HO.
    Qed.
    (** Otherwise: NaN, if the exponent can be converted to an integer. *)
    Theorem ipow_not_integer x y n : aproper x -> aproper y -> o_lt (alower x) n_zero = true -> m_trunc M (alower y) = Ret n -> ~ is_integer M n y ->
      exists Z, ipow M dbg x y = Ret Z /\ nan_ivl Z.
    Proof.
      intros Px Py Hl En NI. unfold ipow. rewrite (pre_ok HN dbg x y Px Py), (nonneg_part dbg x Px), (neg_part dbg x Px), Hl. cbn [bind].
      assert (K : o_eq (alower y) (aupper y) && o_eq (m_of_Z M n) (alower y) = false).
      { apply not_true_is_false. intros K. apply andb_true_iff in K as [A B]. apply NI. split; auto. }
      destruct (o_le n_zero (aupper x)) eqn:Hu.
      - destruct (nonneg_branch x y Px Py Hu) as (Z & -> & _). cbn [bind]. rewrite En. cbn [bind]. rewrite K. exact (nan_interval_nan HN HF).
      - cbn [bind]. rewrite En. cbn [bind]. rewrite K. exact (nan_interval_nan HN HF).
    Qed.
    Theorem ipow_ub x y : aproper x -> aproper y -> o_lt (alower x) n_zero = true -> m_trunc M (alower y) = UB -> ipow M dbg x y = UB.
    Proof.
      intros Px Py Hl En. unfold ipow. rewrite (pre_ok HN dbg x y Px Py), (nonneg_part dbg x Px), (neg_part dbg x Px), Hl. cbn [bind].
      destruct (o_le n_zero (aupper x)) eqn:Hu.
      - destruct (nonneg_branch x y Px Py Hu) as (Z & -> & _). cbn [bind]. now rewrite En.
      - cbn [bind]. now rewrite En.
    Qed.

    (** *** the exponent 0 and the base 1 *)
    Lemma hull_one (P : N -> Prop) Z : (forall v, P v -> o_eq v n_one = true) -> is_hull P Z -> o_eq (lo Z) n_one = true /\ o_eq (hi Z) n_one = true.
    Proof. intros H (_ & (v & Pv & Ev) & (w & Pw & Ew)). apply H in Pv, Pw. split; [clear - HO Pv Ev|clear - HO Pw Ew]; ord HO. Qed.
    Lemma times0_zero u v z : ok u -> ok v -> is_zero u \/ is_zero v -> times0 u v z -> is_zero z.
    Proof.
      intros Ou Ov H [[_ ->]|[A B]].
      - unfold is_zero. pose proof zero_zero as K. clear - HO K. ord HO.
      - apply (zero_product u v z H Ou Ov B). apply (nl_mul_nan N HN u v z Ou Ov B). exact A.
    Qed.
    Context (E0 : forall e : N, is_zero e -> o_eq (m_exp M e) n_one = true).
    Lemma log_ok v : nonneg v -> ok (m_log M v).
    Proof. intros H. apply (IL v v H H). unfold nonneg in H. clear - HO H. ord HO. Qed.
    Theorem ipow_zero x y : aproper x -> is_zero (alower y) -> is_zero (aupper y) -> nonneg (alower x) \/ (o_lt (alower x) n_zero = true /\ is_integer M 0 y) ->
      exists Z, ipow M dbg x y = Ret Z /\ o_eq (lo Z) n_one = true /\ o_eq (hi Z) n_one = true.
    Proof.
      intros Px Zl Zu H. unfold is_zero in Zl, Zu. assert (Py : aproper y) by (unfold aproper; clear - HO Zl Zu; ord HO).
      assert (K : forall a b v, nonneg a -> ael y b -> pow_at M a b v -> o_eq v n_one = true).
      { intros a b v Na [B1 B2] (e & T & ->). apply E0. apply (times0_zero b (m_log M a) e); auto; [clear - HO B1; ord HO|now apply log_ok|].
        left. unfold is_zero. clear - HO B1 B2 Zl Zu. ord HO. }
      destruct H as [H|[H I]].
      - destruct (ipow_nonneg x y Px Py H) as (Z & E & HZ). exists Z. split; [exact E|]. apply (hull_one _ Z) in HZ; [exact HZ|]. intros v (a & b & _ & Na & Hb & Hv). eauto.
      - destruct (ipow_integer x y 0 Px H I) as (Z & E & HZ). exists Z. split; [exact E|]. apply (hull_one _ Z) in HZ; [exact HZ|].
        intros v [(a & b & _ & Na & Hb & Hv)|(a & b & _ & Na & Hb & (c & w & Hc & Hw & Hv))]; [eauto|]. cbn in Hv. subst w. apply (K c b v); auto. exact (proj2 (neg_sign a c Hc) Na).
    Qed.
    Theorem ipow_one x y : o_eq (alower x) n_one = true -> o_eq (aupper x) n_one = true -> aproper y -> is_zero (m_log M n_one) ->
      exists Z, ipow M dbg x y = Ret Z /\ o_eq (lo Z) n_one = true /\ o_eq (hi Z) n_one = true.
    Proof.
      intros Xl Xu Py L. destruct (nl_one N HN) as (O1 & _). assert (Px : aproper x) by (unfold aproper; clear - HO Xl Xu; ord HO).
      destruct (ipow_nonneg x y Px Py) as (Z & E & HZ); [unfold nonneg; clear - HO Xl O1; ord HO|]. exists Z. split; [exact E|]. apply (hull_one _ Z) in HZ; [exact HZ|].
      intros v (a & b & [A1 A2] & Na & Hb & (e & T & ->)). apply E0. apply (times0_zero b (m_log M a) e); auto; [exact (ael_ok HO _ _ Hb)|now apply log_ok|].
      right. unfold is_zero in *. assert (N1 : nonneg (n_one : N)) by (unfold nonneg; clear - HO O1; ord HO).
      pose proof (IL a n_one Na N1 ltac:(clear - HO A2 Xu; ord HO)) as B1. pose proof (IL n_one a N1 Na ltac:(clear - HO A1 Xl; ord HO)) as B2. clear - HO B1 B2 L. ord HO.
    Qed.
  End Main.
End PowHull.
