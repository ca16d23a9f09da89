(** Proofs about intervals over any ordered value type. *)
From Coq Require Import Bool List.
From Verif Require Import Outcome SetModel Spec SetProofs SetProofs2 Num NumLaws IntervalModel IvlSpec.
Import ListNotations.

Ltac notHyp P := match goal with | [ _ : P |- _ ] => fail 1 | _ => idtac end.

(** Saturation with the order laws. *)
Ltac ord_facts HO :=
  repeat match goal with
  | H : ?x = ?x |- _ => clear H
  | H : _ && _ = true |- _ => apply andb_true_iff in H; destruct H
  | H : _ || _ = false |- _ => apply orb_false_iff in H; destruct H
  | H : negb _ = true |- _ => apply negb_true_iff in H
  | H : negb _ = false |- _ => apply negb_false_iff in H
  | H : _ /\ _ |- _ => destruct H
  | H : ok _ |- _ => unfold ok in H
  | H : context [o_lt _ _] |- _ => rewrite (ol_lt _ HO) in H
  | H : context [o_eq _ _] |- _ => rewrite (ol_eq _ HO) in H
  | H : o_le ?a ?b = true |- _ => notHyp (o_le a a = true); pose proof (proj1 (ol_ok _ HO _ _ H) : o_le a a = true)
  | H : o_le ?a ?b = true |- _ => notHyp (o_le b b = true); pose proof (proj2 (ol_ok _ HO _ _ H) : o_le b b = true)
  | H : o_le ?a ?b = false, Ha : o_le ?a ?a = true, Hb : o_le ?b ?b = true |- _ =>
      notHyp (o_le b a = true);
      assert (o_le b a = true) by (destruct (ol_total _ HO a b Ha Hb) as [Htot|Htot]; [rewrite Htot in H; discriminate|exact Htot])
  | H1 : o_le ?a ?b = true, H2 : o_le ?b ?c = true |- _ => notHyp (o_le a c = true); pose proof (ol_trans _ HO _ _ _ H1 H2)
  end.
Ltac ord_split :=
  match goal with
  | H : _ && _ = false |- _ => apply andb_false_iff in H; destruct H
  | H : _ || _ = true |- _ => apply orb_true_iff in H; destruct H
  | H : _ \/ _ |- _ => destruct H
  end.
Ltac ord_goal HO :=
  repeat match goal with
  | |- ok _ => unfold ok
  | |- context [o_lt _ _] => rewrite (ol_lt _ HO)
  | |- context [o_eq _ _] => rewrite (ol_eq _ HO)
  end.
Ltac ord_close :=
  first [ assumption | discriminate
        | match goal with H : o_le ?a ?b = true, H' : o_le ?a ?b = false |- _ => rewrite H in H'; discriminate H' end ].
Ltac ord_core HO := ord_facts HO; try solve [ord_close]; repeat (ord_split; ord_facts HO; try solve [ord_close]).
Ltac ord_cases HO :=
  match goal with
  | |- context [o_le ?a ?b] => let E := fresh "E" in destruct (o_le a b) eqn:E; cbn [andb orb negb]; try solve [reflexivity | ord_core HO]; ord_cases HO
  | _ => idtac
  end.
(** Decide goals that are boolean combinations of comparisons from comparisons in the context. *)
Ltac ord HO := ord_goal HO; ord_core HO; ord_cases HO; try solve [ord_core HO | reflexivity].
Ltac ords HO := repeat split; ord HO.

Section Ord.
  Context {O : ordty} (HO : ord_laws O).
  Implicit Types (X Y Z : ivl O) (v w : O) (a b : arg O).

  Lemma omin_l v w : ok v -> ok w -> o_le (omin v w) v = true.
  Proof. intros H1 H2. unfold omin. destruct (o_lt w v) eqn:E; ord HO. Qed.
  Lemma omin_r v w : ok v -> ok w -> o_le (omin v w) w = true.
  Proof. intros H1 H2. unfold omin. destruct (o_lt w v) eqn:E; ord HO. Qed.
  Lemma omax_l v w : ok v -> ok w -> o_le v (omax v w) = true.
  Proof. intros H1 H2. unfold omax. destruct (o_lt v w) eqn:E; ord HO. Qed.
  Lemma omax_r v w : ok v -> ok w -> o_le w (omax v w) = true.
  Proof. intros H1 H2. unfold omax. destruct (o_lt v w) eqn:E; ord HO. Qed.
  Lemma omin_cases v w : omin v w = v \/ omin v w = w.
  Proof. unfold omin. destruct (o_lt w v); tauto. Qed.
  Lemma omax_cases v w : omax v w = v \/ omax v w = w.
  Proof. unfold omax. destruct (o_lt v w); tauto. Qed.
  Lemma omin_glb v w z : o_le z v = true -> o_le z w = true -> o_le z (omin v w) = true.
  Proof. destruct (omin_cases v w) as [ -> | -> ]; auto. Qed.
  Lemma omax_lub v w z : o_le v z = true -> o_le w z = true -> o_le (omax v w) z = true.
  Proof. destruct (omax_cases v w) as [ -> | -> ]; auto. Qed.
  Lemma omin_le_omax v w : ok v -> ok w -> o_le (omin v w) (omax v w) = true.
  Proof. intros H1 H2. eapply (ol_trans _ HO); [apply omin_l|apply omax_l]; auto. Qed.

  Lemma ok_lt_dec v w : ok v -> ok w -> o_le v w = true \/ o_lt w v = true.
  Proof. intros H1 H2. destruct (o_le v w) eqn:E; [tauto|right]. ord HO. Qed.

  (** ** construction *)
  Lemma mk_iff (l u : O) Z : mk l u = Ret Z <-> Z = Ivl l u /\ o_lt u l = false.
  Proof. unfold mk, expects. destruct (o_lt u l); cbn; split; try (intros [? ?]; congruence); [discriminate|]. intros H; injection H as <-; auto. Qed.
  Lemma mk_proper (l u : O) : o_le l u = true -> mk l u = Ret (Ivl l u).
  Proof. intros H. apply mk_iff. split; [reflexivity|]. ord HO. Qed.
  Lemma mk_cases (l u : O) : (mk l u = Ret (Ivl l u) /\ o_lt u l = false) \/ (mk l u = FailFast /\ o_lt u l = true).
  Proof. unfold mk, expects. destruct (o_lt u l); cbn; tauto. Qed.
  Lemma fub_total (b1 b2 : O) : exists Z, from_unordered_bounds b1 b2 = Ret Z /\ assigned Z = true /\ (ok b1 -> ok b2 -> is_hull (fun v => v = b1 \/ v = b2) Z).
  Proof.
    unfold from_unordered_bounds.
    assert (H : o_lt (omax b1 b2) (omin b1 b2) = false).
    { unfold omin, omax. destruct (o_lt b2 b1) eqn:E1, (o_lt b1 b2) eqn:E2; ord HO. }
    exists (Ivl (omin b1 b2) (omax b1 b2)). split; [now apply mk_iff|]. unfold assigned; cbn. rewrite H. split; [reflexivity|].
    intros H1 H2. split; [|split]; cbn.
    - intros v [ -> | -> ]; split; cbn; auto using omin_l, omin_r, omax_l, omax_r.
    - destruct (omin_cases b1 b2) as [ -> | -> ]; [exists b1|exists b2]; split; auto; ord HO.
    - destruct (omax_cases b1 b2) as [ -> | -> ]; [exists b1|exists b2]; split; auto; ord HO.
  Qed.
  Lemma ctor_failfast (l u : O) : (mk l u = FailFast <-> o_lt u l = true) /\ (o_lt u l = false -> mk l u = Ret (Ivl l u)).
  Proof. unfold mk, expects. destruct (o_lt u l); cbn; split; try split; congruence. Qed.

  Lemma proper_assigned X : proper X -> assigned X = true.
  Proof. unfold proper, assigned. intros H. ord HO. Qed.
  Lemma assigned_proper X : ok (lo X) -> ok (hi X) -> assigned X = true -> proper X.
  Proof. unfold proper, assigned. intros H1 H2 H3. ord HO. Qed.
  Lemma aproper_assigned a : aproper a -> aassigned a = true.
  Proof. destruct a as [x|X]; cbn; [reflexivity|]. apply proper_assigned. Qed.
  Lemma proper_iff X : proper X <-> exists v, el X v.
  Proof.
    split.
    - intros H. exists (lo X). unfold proper in H. split; ord HO.
    - intros (v & H1 & H2). unfold proper. ord HO.
  Qed.
  Lemma el_ok X v : el X v -> ok v.
  Proof. intros [H1 H2]. ord HO. Qed.
  Lemma ael_ok a v : ael a v -> ok v.
  Proof. intros [H1 H2]. ord HO. Qed.
  Lemma ael_aproper a v : ael a v -> aproper a.
  Proof. intros [H1 H2]. unfold aproper. ord HO. Qed.
  Lemma ael_lower a : aproper a -> ael a (alower a).
  Proof. unfold aproper, ael. intros H; split; ord HO. Qed.
  Lemma ael_upper a : aproper a -> ael a (aupper a).
  Proof. unfold aproper, ael. intros H; split; ord HO. Qed.
  Lemma el_lower X : proper X -> el X (lo X).
  Proof. unfold proper, el. intros H; split; ord HO. Qed.
  Lemma el_upper X : proper X -> el X (hi X).
  Proof. unfold proper, el. intros H; split; ord HO. Qed.
  Lemma ael_iv X v : ael (Iv X) v <-> el X v.
  Proof. reflexivity. Qed.
  Lemma ael_sc x v : ael (Sc x) v <-> same_value v x.
  Proof. unfold ael, same_value; cbn. split; [intros [H1 H2]; ord HO|]. intros H. split; ord HO. Qed.

  (** ** containment queries (C11) *)
  Lemma contains_iff X v : contains X v = true <-> el X v.
  Proof. unfold contains, el. now rewrite andb_true_iff. Qed.
  Lemma subset_iff X Y : proper Y -> subset Y X <-> o_le (lo X) (lo Y) = true /\ o_le (hi Y) (hi X) = true.
  Proof.
    intros HY. split.
    - intros H. destruct (H _ (el_lower Y HY)) as [H1 _], (H _ (el_upper Y HY)) as [_ H2]. auto.
    - intros [H1 H2] v [H3 H4]. split; ord HO.
  Qed.
  Lemma contains_ivl_iff X Y : proper X -> proper Y -> contains_ivl X Y = true <-> subset Y X.
  Proof.
    intros HX HY. rewrite (subset_iff X Y HY). unfold contains_ivl. rewrite (proper_assigned X HX). cbn. now rewrite andb_true_iff.
  Qed.
  Lemma encloses_iff X v : encloses X v = true <-> o_lt (lo X) v = true /\ o_lt v (hi X) = true.
  Proof. unfold encloses. now rewrite andb_true_iff. Qed.
  Lemma encloses_ivl_iff X Y : proper Y -> encloses_ivl X Y = true <-> forall v, el Y v -> encloses X v = true.
  Proof.
    intros HY. unfold encloses_ivl, encloses. rewrite andb_true_iff. split.
    - intros [H1 H2] v [H3 H4]. rewrite andb_true_iff. split; ord HO.
    - intros H. pose proof (H _ (el_lower Y HY)) as H1. pose proof (H _ (el_upper Y HY)) as H2.
      rewrite andb_true_iff in H1, H2. tauto.
  Qed.
  Lemma overlaps_iff X Y : proper X -> proper Y -> overlaps_with X Y = true <-> exists v, el X v /\ el Y v.
  Proof.
    intros HX HY. unfold overlaps_with. rewrite (proper_assigned X HX). cbn. rewrite andb_true_iff. unfold proper in *. split.
    - intros [H1 H2]. exists (omax (lo X) (lo Y)). unfold el.
      destruct (omax_cases (lo X) (lo Y)) as [E|E]; unfold omax in E |- *; destruct (o_lt (lo X) (lo Y)) eqn:E2; repeat split; ord HO.
    - intros (v & [H1 H2] & [H3 H4]). split; ord HO.
  Qed.
  Lemma overlaps_sym X Y : proper X -> proper Y -> overlaps_with X Y = overlaps_with Y X.
  Proof.
    intros HX HY. apply eq_true_iff_eq. rewrite !overlaps_iff by assumption. split; intros (v & H1 & H2); eauto.
  Qed.
  Lemma matches_ivl_iff X Y : proper X -> proper Y -> matches_ivl X Y = true <-> same X Y.
  Proof.
    intros HX HY. unfold matches_ivl. rewrite andb_true_iff. split.
    - intros [H1 H2] v. unfold el. split; intros [H3 H4]; split; ord HO.
    - intros H. assert (H1 : subset X Y) by (intros v; apply H). assert (H2 : subset Y X) by (intros v; apply H).
      apply (subset_iff Y X HX) in H1. apply (subset_iff X Y HY) in H2. split; ord HO.
  Qed.
  Lemma matches_iff X v : matches X v = true <-> el X v /\ forall w, el X w -> same_value w v.
  Proof.
    unfold matches, el, same_value. rewrite andb_true_iff. split.
    - intros [H1 H2]. split; [split; ord HO|]. intros w [H3 H4]. ord HO.
    - intros [[H1 H2] H]. assert (HX : proper X) by (unfold proper; ord HO).
      pose proof (H _ (el_lower X HX)). pose proof (H _ (el_upper X HX)). auto.
  Qed.
  Lemma value_ret_iff X v : value X = Ret v <-> v = lo X /\ (exists w, el X w) /\ forall w w', el X w -> el X w' -> same_value w w'.
  Proof.
    unfold value, same_value. destruct (o_eq (lo X) (hi X)) eqn:E.
    - split.
      + intros H. injection H as <-. split; [reflexivity|]. split; [exists (lo X); split; ord HO|].
        intros w w' [H1 H2] [H3 H4]. ord HO.
      + intros [ -> _ ]. reflexivity.
    - split; [discriminate|]. intros (_ & Hn & H). apply proper_iff in Hn.
      rewrite (H _ _ (el_lower X Hn) (el_upper X Hn)) in E. discriminate.
  Qed.
  Lemma value_else X : (forall v, value X <> Ret v) -> value X = FailFast.
  Proof. unfold value. destruct (o_eq (lo X) (hi X)); [|reflexivity]. intros H. now destruct (H (lo X)). Qed.

  (** ** relational operators (C08, C09) *)
  Lemma two_true (c1 c2 b : bool) (s := @set_empty bool_enum) :
    let r := if c1 then bassign s b else s in
    let r := if c2 then bassign r (negb b) else r in
    (member r b <-> c1 = true) /\ (member r (negb b) <-> c2 = true).
  Proof. subst s. cbv zeta. rewrite !(two_assign_member c1 c2 b). destruct b; cbn; intuition discriminate. Qed.

  Lemma compare_lt_exact a b : aproper a -> aproper b -> rel_exact o_lt (compare_lt a b) a b.
  Proof.
    unfold aproper. intros Ha Hb. split; [apply (two_assign_wf _ _ true)|].
    destruct (two_true (o_lt (alower a) (aupper b)) (o_le (alower b) (aupper a)) true) as [Ht Hf].
    intros [|]; unfold compare_lt; [rewrite Ht|rewrite Hf]; split.
    - intros H. exists (alower a), (aupper b). split; [|split]; [split; ord HO|split; ord HO|exact H].
    - intros (x & y & [H1 H2] & [H3 H4] & H). ord HO.
    - intros H. exists (aupper a), (alower b). split; [|split]; [split; ord HO|split; ord HO|ord HO].
    - intros (x & y & [H1 H2] & [H3 H4] & H). ord HO.
  Qed.
  Lemma compare_leq_exact a b : aproper a -> aproper b -> rel_exact o_le (compare_leq a b) a b.
  Proof.
    unfold aproper. intros Ha Hb. split; [apply (two_assign_wf _ _ true)|].
    destruct (two_true (o_le (alower a) (aupper b)) (o_lt (alower b) (aupper a)) true) as [Ht Hf].
    intros [|]; unfold compare_leq; [rewrite Ht|rewrite Hf]; split.
    - intros H. exists (alower a), (aupper b). split; [|split]; [split; ord HO|split; ord HO|exact H].
    - intros (x & y & [H1 H2] & [H3 H4] & H). ord HO.
    - intros H. exists (aupper a), (alower b). split; [|split]; [split; ord HO|split; ord HO|ord HO].
    - intros (x & y & [H1 H2] & [H3 H4] & H). ord HO.
  Qed.
  Lemma eq_possible_iff a b : aproper a -> aproper b ->
    o_le (alower a) (aupper b) && o_le (alower b) (aupper a) = true <-> exists x y, ael a x /\ ael b y /\ o_eq x y = true.
  Proof.
    unfold aproper, ael. intros Ha Hb. rewrite andb_true_iff. split.
    - intros [H1 H2]. destruct (o_le (alower a) (alower b)) eqn:E.
      + exists (alower b), (alower b). repeat split; ord HO.
      + exists (alower a), (alower a). repeat split; ord HO.
    - intros (x & y & [H1 H2] & [H3 H4] & H). split; ord HO.
  Qed.
  Lemma neq_possible_iff a b : aproper a -> aproper b ->
    negb (o_eq (alower a) (aupper b)) || negb (o_eq (aupper a) (alower b)) = true <-> exists x y, ael a x /\ ael b y /\ o_eq x y = false.
  Proof.
    unfold aproper, ael. intros Ha Hb. rewrite orb_true_iff, !negb_true_iff. split.
    - intros [H|H]; [exists (alower a), (aupper b)|exists (aupper a), (alower b)]; repeat split; try exact H; ord HO.
    - intros (x & y & [H1 H2] & [H3 H4] & H).
      destruct (o_eq (alower a) (aupper b)) eqn:E1; [|tauto]. destruct (o_eq (aupper a) (alower b)) eqn:E2; [|tauto].
      exfalso. ord HO.
  Qed.
  Lemma compare_eq_exact a b : aproper a -> aproper b -> rel_exact o_eq (compare_eq a b) a b.
  Proof.
    intros Ha Hb. split; [apply (two_assign_wf _ _ true)|].
    destruct (two_true (o_le (alower a) (aupper b) && o_le (alower b) (aupper a)) (negb (o_eq (alower a) (aupper b)) || negb (o_eq (aupper a) (alower b))) true) as [Ht Hf].
    intros [|]; unfold compare_eq; [rewrite Ht|rewrite Hf]; [now apply eq_possible_iff|now apply neq_possible_iff].
  Qed.
  Lemma compare_neq_exact a b : aproper a -> aproper b -> rel_exact (fun x y => negb (o_eq x y)) (compare_neq a b) a b.
  Proof.
    intros Ha Hb. split; [apply (two_assign_wf _ _ false)|].
    destruct (two_true (o_le (alower a) (aupper b) && o_le (alower b) (aupper a)) (negb (o_eq (alower a) (aupper b)) || negb (o_eq (aupper a) (alower b))) false) as [Ht Hf].
    intros [|]; unfold compare_neq; [rewrite Hf|rewrite Ht].
    - rewrite (neq_possible_iff a b Ha Hb). split; intros (x & y & Hx & Hy & H); exists x, y; (split; [|split]); auto; destruct (o_eq x y); auto.
    - rewrite (eq_possible_iff a b Ha Hb). split; intros (x & y & Hx & Hy & H); exists x, y; (split; [|split]); auto; destruct (o_eq x y); auto.
  Qed.
  Lemma rel_exact_swap f s a b : rel_exact f s b a -> rel_exact (fun x y => f y x) s a b.
  Proof. intros [H1 H2]. split; [exact H1|]. intros t. rewrite H2. split; intros (x & y & Hx & Hy & H); eauto. Qed.

  Lemma rel_pre_ok dbg a b : aproper a -> aproper b -> rel_pre dbg a b = Ret tt.
  Proof. intros Ha Hb. unfold rel_pre. rewrite !aproper_assigned by assumption. now destruct dbg. Qed.

  Lemma relational_exact dbg a b : aproper a -> aproper b ->
    (exists s, rel_eq dbg a b = Ret s /\ rel_exact o_eq s a b)
    /\ (exists s, rel_neq dbg a b = Ret s /\ rel_exact (fun x y => negb (o_eq x y)) s a b)
    /\ (exists s, rel_lt dbg a b = Ret s /\ rel_exact o_lt s a b)
    /\ (exists s, rel_leq dbg a b = Ret s /\ rel_exact o_le s a b)
    /\ (exists s, rel_gt dbg a b = Ret s /\ rel_exact (fun x y => o_lt y x) s a b)
    /\ (exists s, rel_geq dbg a b = Ret s /\ rel_exact (fun x y => o_le y x) s a b).
  Proof.
    intros Ha Hb. unfold rel_eq, rel_neq, rel_lt, rel_leq, rel_gt, rel_geq. rewrite (rel_pre_ok dbg a b Ha Hb). cbn.
    repeat split; eexists; (split; [reflexivity|]).
    - now apply compare_eq_exact.
    - now apply compare_neq_exact.
    - now apply compare_lt_exact.
    - now apply compare_leq_exact.
    - apply rel_exact_swap. now apply compare_lt_exact.
    - apply rel_exact_swap. now apply compare_leq_exact.
  Qed.

  (** Unassigned operands: fail-fast in debug mode. *)
  Lemma relational_unassigned a b : aassigned a && aassigned b = false ->
    rel_eq true a b = FailFast /\ rel_neq true a b = FailFast /\ rel_lt true a b = FailFast
    /\ rel_leq true a b = FailFast /\ rel_gt true a b = FailFast /\ rel_geq true a b = FailFast.
  Proof.
    intros H. unfold rel_eq, rel_neq, rel_lt, rel_leq, rel_gt, rel_geq, rel_pre. cbn. rewrite H. repeat split.
  Qed.

  Lemma rel_exact_unique f s s' a b : rel_exact f s a b -> rel_exact f s' a b -> s = s'.
  Proof.
    intros [H1 H2] [H3 H4]. apply (state_ext bool_enum_ok); auto. intros t. change (ev bool_enum) with bool in t. now rewrite H2, H4.
  Qed.
  Lemma rel_exact_neg dbg f g s a b : (forall x y, ael a x -> ael b y -> g x y = negb (f x y)) -> aproper a -> aproper b ->
    rel_exact f s a b -> exists s', bnot dbg s = Ret s' /\ rel_exact g s' a b.
  Proof.
    intros Hfg Ha Hb [Hwf Hs].
    assert (Hne : exists t, member s t).
    { exists (f (alower a) (alower b)). apply Hs. exists (alower a), (alower b). auto using ael_lower. }
    assert (Hr : exists r, bnot dbg s = Ret r).
    { destruct dbg; [now apply bnot_debug|now apply bnot_release]. }
    destruct Hr as (r & Hr). exists r. split; [exact Hr|]. split; [eapply bnot_wf; exact Hr|].
    intros t. rewrite (bnot_exact dbg s r Hwf Hr). unfold ext1. split.
    - intros (u & Hu & <-). apply Hs in Hu as (x & y & Hx & Hy & <-). exists x, y. auto.
    - intros (x & y & Hx & Hy & <-). exists (f x y). split; [apply Hs; eauto|]. symmetry. auto.
  Qed.

  Lemma relational_axioms dbg a b : aproper a -> aproper b ->
    exists e n l le g ge, rel_eq dbg a b = Ret e /\ rel_neq dbg a b = Ret n /\ rel_lt dbg a b = Ret l /\ rel_leq dbg a b = Ret le
      /\ rel_gt dbg a b = Ret g /\ rel_geq dbg a b = Ret ge
      /\ bnot dbg e = Ret n /\ bnot dbg l = Ret ge /\ bnot dbg g = Ret le /\ bnot dbg le = Ret g /\ bnot dbg ge = Ret l
      /\ (member l true \/ member e true \/ member g true)
      /\ (~ member e false -> ~ member l true /\ ~ member g true)
      /\ (~ member l false -> ~ member e true /\ ~ member g true)
      /\ (member le true <-> member l true \/ member e true).
  Proof.
    intros Ha Hb. destruct (relational_exact dbg a b Ha Hb) as ((e & He & Ee) & (n & Hn & En) & (l & Hl & El) & (le & Hle & Ele) & (g & Hg & Eg) & (ge & Hge & Ege)).
    exists e, n, l, le, g, ge. do 6 (split; [assumption|]).
    assert (Hord : forall x y, ael a x -> ael b y -> o_le y x = negb (o_lt x y)).
    { intros x y [H1 H2] [H3 H4]. ord HO. }
    assert (Hord2 : forall x y, ael a x -> ael b y -> o_le x y = negb (o_lt y x)).
    { intros x y [H1 H2] [H3 H4]. ord HO. }
    assert (Hneg : forall f f' s s', rel_exact f s a b -> rel_exact f' s' a b -> (forall x y, ael a x -> ael b y -> f' x y = negb (f x y)) -> bnot dbg s = Ret s').
    { intros f f' s s' Es Es' H. destruct (rel_exact_neg dbg f f' s a b H Ha Hb Es) as (s'' & -> & Es''). f_equal. eapply rel_exact_unique; eauto. }
    split; [apply (Hneg _ _ _ _ Ee En); auto|].
    split; [apply (Hneg _ _ _ _ El Ege); auto|].
    split; [apply (Hneg _ _ _ _ Eg Ele); auto|].
    split; [apply (Hneg _ _ _ _ Ele Eg)|].
    { intros x y Hx Hy. rewrite (Hord2 x y Hx Hy). now rewrite negb_involutive. }
    split; [apply (Hneg _ _ _ _ Ege El)|].
    { intros x y Hx Hy. rewrite (Hord x y Hx Hy). now rewrite negb_involutive. }
    destruct Ee as [_ Ee], En as [_ En], El as [_ El], Ele as [_ Ele], Eg as [_ Eg], Ege as [_ Ege].
    rewrite !Ee, !El, !Eg, !Ele.
    split; [|split; [|split]].
    - pose proof (ael_lower a Ha) as H1. pose proof (ael_lower b Hb) as H2.
      destruct (o_lt (alower a) (alower b)) eqn:E1; [left; eauto 6|]. right.
      destruct (o_lt (alower b) (alower a)) eqn:E2; [right; eauto 6|]. left. exists (alower a), (alower b). split; [exact H1|]. split; [exact H2|].
      destruct H1, H2. ord HO.
    - intros H. split; intros (x & y & Hx & Hy & Hl'); apply H; exists x, y; (split; [exact Hx|]); (split; [exact Hy|]); destruct Hx, Hy; ord HO.
    - intros H. split; intros (x & y & Hx & Hy & Hl'); apply H; exists x, y; (split; [exact Hx|]); (split; [exact Hy|]); destruct Hx, Hy; ord HO.
    - split.
      + intros (x & y & Hx & Hy & H). destruct (o_lt x y) eqn:E1; [left; eauto 6|right]. exists x, y. split; [exact Hx|]. split; [exact Hy|]. destruct Hx, Hy. ord HO.
      + intros [(x & y & Hx & Hy & H)|(x & y & Hx & Hy & H)]; exists x, y; (split; [exact Hx|]); (split; [exact Hy|]); ord HO.
  Qed.

  (** NaN operands: comparisons are all false. *)
  Lemma not_ok_le v w : ~ ok v \/ ~ ok w -> o_le v w = false.
  Proof. intros H. destruct (o_le v w) eqn:E; [|reflexivity]. destruct (ol_ok _ HO _ _ E). tauto. Qed.
  Lemma nan_not_ok v : nan v <-> ~ ok v.
  Proof. unfold nan, ok. rewrite (ol_eq _ HO). destruct (o_le v v); cbn; split; congruence. Qed.
  Lemma relational_nan dbg a b :
    (nan (alower a) /\ nan (aupper a) \/ nan (alower b) /\ nan (aupper b)) ->
    aassigned a = true -> aassigned b = true ->
    rel_lt dbg a b = Ret set_empty /\ rel_leq dbg a b = Ret set_empty /\ rel_gt dbg a b = Ret set_empty /\ rel_geq dbg a b = Ret set_empty
    /\ rel_eq dbg a b = Ret (bset_of false) /\ rel_neq dbg a b = Ret (bset_of true).
  Proof.
    intros H Ha Hb. unfold rel_eq, rel_neq, rel_lt, rel_leq, rel_gt, rel_geq, rel_pre. rewrite Ha, Hb.
    rewrite !nan_not_ok in H.
    assert (H1 : o_le (alower a) (aupper b) = false) by (apply not_ok_le; tauto).
    assert (H2 : o_le (alower b) (aupper a) = false) by (apply not_ok_le; tauto).
    unfold compare_lt, compare_leq, compare_eq, compare_neq. rewrite !(ol_lt _ HO), !(ol_eq _ HO), H1, H2.
    destruct dbg; cbn; repeat split.
  Qed.

  (** ** min, max, infimum, supremum (C19) *)
  Lemma imin_hull dbg a b : aproper a -> aproper b ->
    exists Z, imin dbg a b = Ret Z /\ is_hull (img2 (fun x y => Ret (omin x y)) a b) Z.
  Proof.
    unfold aproper. intros Ha Hb. unfold imin. rewrite !aproper_assigned by assumption.
    exists (Ivl (omin (alower a) (alower b)) (omin (aupper a) (aupper b))).
    assert (Hle : o_le (omin (alower a) (alower b)) (omin (aupper a) (aupper b)) = true).
    { unfold omin. destruct (o_lt (alower b) (alower a)) eqn:E1, (o_lt (aupper b) (aupper a)) eqn:E2; ord HO. }
    split; [destruct dbg; cbn; now apply mk_proper|]. split; [|split]; cbn.
    - intros v (x & y & [H1 H2] & [H3 H4] & H). injection H as <-. split; cbn; unfold omin;
        destruct (o_lt y x) eqn:E0, (o_lt (alower b) (alower a)) eqn:E1, (o_lt (aupper b) (aupper a)) eqn:E2; ord HO.
    - exists (omin (alower a) (alower b)). split; [|unfold omin; destruct (o_lt (alower b) (alower a)) eqn:E1; ord HO].
      exists (alower a), (alower b). auto using ael_lower.
    - exists (omin (aupper a) (aupper b)). split; [|unfold omin; destruct (o_lt (aupper b) (aupper a)) eqn:E1; ord HO].
      exists (aupper a), (aupper b). auto using ael_upper.
  Qed.
  Lemma imax_hull dbg a b : aproper a -> aproper b ->
    exists Z, imax dbg a b = Ret Z /\ is_hull (img2 (fun x y => Ret (omax x y)) a b) Z.
  Proof.
    unfold aproper. intros Ha Hb. unfold imax. rewrite !aproper_assigned by assumption.
    exists (Ivl (omax (alower a) (alower b)) (omax (aupper a) (aupper b))).
    assert (Hle : o_le (omax (alower a) (alower b)) (omax (aupper a) (aupper b)) = true).
    { unfold omax. destruct (o_lt (alower a) (alower b)) eqn:E1, (o_lt (aupper a) (aupper b)) eqn:E2; ord HO. }
    split; [destruct dbg; cbn; now apply mk_proper|]. split; [|split]; cbn.
    - intros v (x & y & [H1 H2] & [H3 H4] & H). injection H as <-. split; cbn; unfold omax;
        destruct (o_lt x y) eqn:E0, (o_lt (alower a) (alower b)) eqn:E1, (o_lt (aupper a) (aupper b)) eqn:E2; ord HO.
    - exists (omax (alower a) (alower b)). split; [|unfold omax; destruct (o_lt (alower a) (alower b)) eqn:E1; ord HO].
      exists (alower a), (alower b). auto using ael_lower.
    - exists (omax (aupper a) (aupper b)). split; [|unfold omax; destruct (o_lt (aupper a) (aupper b)) eqn:E1; ord HO].
      exists (aupper a), (aupper b). auto using ael_upper.
  Qed.
  Lemma infsup dbg a : aproper a ->
    (exists m, infimum dbg a = Ret m /\ ael a m /\ forall v, ael a v -> o_le m v = true)
    /\ (exists m, supremum dbg a = Ret m /\ ael a m /\ forall v, ael a v -> o_le v m = true).
  Proof.
    intros Ha. unfold infimum, supremum. rewrite aproper_assigned by assumption. split.
    - exists (alower a). split; [now destruct dbg|]. split; [now apply ael_lower|]. intros v [H _]. exact H.
    - exists (aupper a). split; [now destruct dbg|]. split; [now apply ael_upper|]. intros v [_ H]. exact H.
  Qed.

  Lemma lower_upper dbg X : proper X ->
    exists l u, lower dbg X = Ret l /\ upper dbg X = Ret u /\ el X l /\ el X u
      /\ (forall v, el X v <-> o_le l v = true /\ o_le v u = true) /\ mk l u = Ret X.
  Proof.
    intros HX. pose proof (proper_assigned X HX) as HA. unfold lower, upper. rewrite HA.
    exists (lo X), (hi X). split; [now destruct dbg|]. split; [now destruct dbg|].
    split; [apply (ael_lower (Iv X) HX)|]. split; [apply (ael_upper (Iv X) HX)|]. split; [reflexivity|].
    unfold assigned in HA. unfold mk. rewrite HA. now destruct X.
  Qed.

  (** ** hull of a union: [assign] *)
  Lemma is_hull_proper P Z : is_hull P Z -> proper Z.
  Proof. intros (H & (v & Hv & _) & _). apply proper_iff. exists v. auto. Qed.
  Lemma is_hull_ext P Q Z : (forall v, P v <-> Q v) -> is_hull P Z -> is_hull Q Z.
  Proof.
    intros H (H1 & (v & Hv & Ev) & (w & Hw & Ew)). split; [|split].
    - intros u Hu. apply H1, H, Hu.
    - exists v. split; [now apply H|exact Ev].
    - exists w. split; [now apply H|exact Ew].
  Qed.
  Lemma is_hull_self X : proper X -> is_hull (el X) X.
  Proof.
    intros H. split; [auto|]. split; [exists (lo X)|exists (hi X)]; (split; [auto using el_lower, el_upper|]); unfold proper in H; ord HO.
  Qed.
  Lemma is_hull_unique P X Y : is_hull P X -> is_hull P Y -> same X Y.
  Proof.
    intros (H1 & (v & Hv & Ev) & (w & Hw & Ew)) (H2 & (v' & Hv' & Ev') & (w' & Hw' & Ew')).
    destruct (H1 _ Hv') as [A1 A2], (H1 _ Hw') as [A3 A4], (H2 _ Hv) as [B1 B2], (H2 _ Hw) as [B3 B4].
    intros u. unfold el. split; intros [C1 C2]; split; ord HO.
  Qed.
  (** The hull is the smallest interval: contained in every interval that contains the values. *)
  Lemma is_hull_least P Z : is_hull P Z -> forall W, (forall v, P v -> el W v) -> subset Z W.
  Proof.
    intros (H1 & (v & Hv & Ev) & (w & Hw & Ew)) W HW u [H2 H3].
    destruct (HW _ Hv) as [A1 A2], (HW _ Hw) as [A3 A4]. split; ord HO.
  Qed.
  Lemma assign_bounds_hull X Y : proper X -> proper Y -> is_hull (fun v => el X v \/ el Y v) (assign_bounds X (lo Y) (hi Y)).
  Proof.
    unfold proper. intros HX HY. unfold assign_bounds. split; [|split]; cbn.
    - intros v [[H1 H2]|[H1 H2]]; split; cbn; unfold omin, omax; destruct (o_lt (lo Y) (lo X)) eqn:E1, (o_lt (hi X) (hi Y)) eqn:E2; ord HO.
    - unfold omin. destruct (o_lt (lo Y) (lo X)) eqn:E1; [exists (lo Y)|exists (lo X)]; (split; [|ord HO]); [right|left]; split; ord HO.
    - unfold omax. destruct (o_lt (hi X) (hi Y)) eqn:E1; [exists (hi Y)|exists (hi X)]; (split; [|ord HO]); [right|left]; split; ord HO.
  Qed.
  Lemma iassign_hull X Y : proper X -> proper Y -> exists Z, iassign X Y = Ret Z /\ is_hull (fun v => el X v \/ el Y v) Z.
  Proof.
    intros HX HY. unfold iassign. rewrite (proper_assigned Y HY). eexists. split; [reflexivity|]. now apply assign_bounds_hull.
  Qed.
  Lemma iassign_unassigned X Y : assigned Y = false -> iassign X Y = FailFast.
  Proof. intros H. unfold iassign. now rewrite H. Qed.

  (** ** merge (C38) *)
  Lemma merge_hull X l : proper X -> Forall proper l ->
    exists Z, merge X l = Ret Z /\ is_hull (fun v => exists Y, In Y (X :: l) /\ el Y v) Z.
  Proof.
    unfold merge. revert X. induction l as [|Y l IH]; intros X HX Hl.
    - exists X. split; [reflexivity|]. eapply is_hull_ext; [|apply is_hull_self; exact HX].
      intros v. split; [intros Hv; exists X; cbn; auto|]. intros (Y & [<-|[]] & Hv). exact Hv.
    - inversion Hl as [|? ? HY Hl']; subst. destruct (iassign_hull X Y HX HY) as (X' & HX' & Hh). cbn. rewrite HX'. cbn.
      destruct (IH X' (is_hull_proper _ _ Hh) Hl') as (Z & HZ & HhZ). exists Z. split; [exact HZ|].
      destruct Hh as (G1 & (p & Hp & Ep) & (q & Hq & Eq)).
      assert (HwX' : proper X'). { apply (is_hull_proper (fun v => el X v \/ el Y v)). split; [exact G1|]. eauto 10. }
      split; [|split].
      + intros v (W & [<-|[<-|HW]] & Hv).
        * apply HhZ. exists X'. split; [now left|]. apply G1. auto.
        * apply HhZ. exists X'. split; [now left|]. apply G1. auto.
        * apply HhZ. exists W. split; [now right|exact Hv].
      + destruct HhZ as (G2 & (v & (W & [<-|HW] & Hv) & Ev) & _).
        * (* lower end from X' : then it equals lo X' *)
          assert (Hlo : o_eq (lo X') (lo Z) = true).
          { destruct (G2 (lo X') (ex_intro _ X' (conj (or_introl eq_refl) (el_lower X' HwX')))) as [H1 H2]. destruct Hv. ord HO. }
          destruct Hp as [Hp|Hp]; exists p; (split; [|ord HO]); [exists X|exists Y]; cbn; auto.
        * exists v. split; [|exact Ev]. exists W. cbn. auto.
      + destruct HhZ as (G2 & _ & (v & (W & [<-|HW] & Hv) & Ev)).
        * assert (Hhi : o_eq (hi X') (hi Z) = true).
          { destruct (G2 (hi X') (ex_intro _ X' (conj (or_introl eq_refl) (el_upper X' HwX')))) as [H1 H2]. destruct Hv. ord HO. }
          destruct Hq as [Hq|Hq]; exists q; (split; [|ord HO]); [exists X|exists Y]; cbn; auto.
        * exists v. split; [|exact Ev]. exists W. cbn. auto.
  Qed.
  Lemma merge_unassigned X l : (exists Y, In Y l /\ assigned Y = false) -> merge X l = FailFast.
  Proof.
    unfold merge. revert X. induction l as [|W l IH]; intros X (Y & HY & Hu); [destruct HY|].
    cbn. destruct (assigned W) eqn:E.
    - unfold iassign. rewrite E. cbn. apply IH. destruct HY as [ -> |HY]; [congruence|eauto].
    - unfold iassign. now rewrite E.
  Qed.

  (** ** intersect (C38) *)
  Lemma narrow_interval_common X Y : proper X -> proper Y ->
    exists Z, narrow_interval X Y = Ret Z /\ proper Z
      /\ ((exists v, el X v /\ el Y v) -> forall v, el Z v <-> el X v /\ el Y v).
  Proof.
    unfold proper. intros HX HY. unfold narrow_interval.
    destruct (fub_total (omax (lo X) (lo Y)) (omin (hi X) (hi Y))) as (Z & HZ & Ha & Hh). rewrite HZ. cbn.
    exists (ireset X Z). split; [reflexivity|].
    assert (H1 : ok (omax (lo X) (lo Y))) by (destruct (omax_cases (lo X) (lo Y)) as [ -> | -> ]; ord HO).
    assert (H2 : ok (omin (hi X) (hi Y))) by (destruct (omin_cases (hi X) (hi Y)) as [ -> | -> ]; ord HO).
    split; [exact (is_hull_proper _ _ (Hh H1 H2))|].
    intros (w & [W1 W2] & [W3 W4]) v. unfold from_unordered_bounds in HZ. apply mk_iff in HZ as [ -> _ ]. unfold el; cbn.
    assert (Hle : o_le (omax (lo X) (lo Y)) (omin (hi X) (hi Y)) = true).
    { apply omax_lub; apply omin_glb; ord HO. }
    assert (E1 : omin (omax (lo X) (lo Y)) (omin (hi X) (hi Y)) = omax (lo X) (lo Y)).
    { unfold omin at 1. destruct (o_lt (omin (hi X) (hi Y)) (omax (lo X) (lo Y))) eqn:E; [|reflexivity]. exfalso. ord HO. }
    assert (E2 : omax (omax (lo X) (lo Y)) (omin (hi X) (hi Y)) = omin (hi X) (hi Y) \/ o_eq (omax (lo X) (lo Y)) (omin (hi X) (hi Y)) = true).
    { unfold omax at 1. destruct (o_lt (omax (lo X) (lo Y)) (omin (hi X) (hi Y))) eqn:E; [tauto|]. right. ord HO. }
    rewrite E1.
    assert (K1 : o_le (lo X) (omax (lo X) (lo Y)) = true) by (apply omax_l; ord HO).
    assert (K2 : o_le (lo Y) (omax (lo X) (lo Y)) = true) by (apply omax_r; ord HO).
    assert (K3 : o_le (omin (hi X) (hi Y)) (hi X) = true) by (apply omin_l; ord HO).
    assert (K4 : o_le (omin (hi X) (hi Y)) (hi Y) = true) by (apply omin_r; ord HO).
    assert (E3 : o_eq (omax (omax (lo X) (lo Y)) (omin (hi X) (hi Y))) (omin (hi X) (hi Y)) = true).
    { destruct E2 as [ -> |E2]; [ord HO|]. unfold omax at 1. destruct (o_lt (omax (lo X) (lo Y)) (omin (hi X) (hi Y))) eqn:E; [ord HO|exact E2]. }
    split.
    - intros [V1 V2]. repeat split; ord HO.
    - intros [[V1 V2] [V3 V4]]. assert (V5 : o_le (omax (lo X) (lo Y)) v = true) by (apply omax_lub; auto).
      assert (V6 : o_le v (omin (hi X) (hi Y)) = true) by (apply omin_glb; auto). split; [exact V5|]. ord HO.
  Qed.
  Lemma intersect_common X l : proper X -> Forall proper l -> (exists v, forall Y, In Y (X :: l) -> el Y v) ->
    exists Z, intersect X l = Ret Z /\ forall v, el Z v <-> forall Y, In Y (X :: l) -> el Y v.
  Proof.
    unfold intersect. revert X. induction l as [|Y l IH]; intros X HX Hl (w & Hw).
    - exists X. split; [reflexivity|]. intros v. split; [intros Hv Y [<-|[]]; exact Hv|]. intros H. apply H. now left.
    - inversion Hl as [|? ? HY Hl']; subst. destruct (narrow_interval_common X Y HX HY) as (X' & HX' & Hp & Hc). cbn. rewrite HX'. cbn.
      assert (Hc' := Hc (ex_intro _ w (conj (Hw X (or_introl eq_refl)) (Hw Y (or_intror (or_introl eq_refl)))))).
      destruct (IH X' Hp Hl') as (Z & HZ & Hel).
      { exists w. intros W [<-|HW]; [apply Hc'; split; apply Hw; cbn; auto|apply Hw; cbn; auto]. }
      exists Z. split; [exact HZ|]. intros v. rewrite Hel. split.
      + intros H W [<-|[<-|HW]]; [apply Hc', H; now left|apply Hc', H; now left|apply H; now right].
      + intros H W [<-|HW]; [apply Hc'; split; apply H; cbn; auto|apply H; cbn; auto].
  Qed.

  Lemma intersect_two X Y : proper X -> proper Y -> ~ (exists v, el X v /\ el Y v) ->
    exists Z, intersect X [Y] = Ret Z /\ forall v, el Z v <->
      (forall x y, el X x -> el Y y -> o_le x v = true /\ o_le v y = true) \/ (forall x y, el X x -> el Y y -> o_le y v = true /\ o_le v x = true).
  Proof.
    unfold proper. intros HX HY D. unfold intersect. cbn. unfold narrow_interval.
    destruct (fub_total (omax (lo X) (lo Y)) (omin (hi X) (hi Y))) as (Z & HZ & Ha & Hh). rewrite HZ. cbn. exists (ireset X Z). split; [reflexivity|].
    unfold from_unordered_bounds in HZ. apply mk_iff in HZ as [ -> _ ]. unfold el; cbn.
    assert (C : o_lt (hi X) (lo Y) = true \/ o_lt (hi Y) (lo X) = true).
    { destruct (o_lt (hi X) (lo Y)) eqn:E1; [now left|]. destruct (o_lt (hi Y) (lo X)) eqn:E2; [now right|]. exfalso. apply D.
      exists (omax (lo X) (lo Y)). unfold el. assert (ok (lo X) /\ ok (lo Y) /\ ok (hi X) /\ ok (hi Y)) as (? & ? & ? & ?) by (repeat split; ord HO).
      destruct (omax_cases (lo X) (lo Y)) as [Q|Q]; pose proof (omax_l (lo X) (lo Y) ltac:(assumption) ltac:(assumption)); pose proof (omax_r (lo X) (lo Y) ltac:(assumption) ltac:(assumption)); rewrite Q in *; repeat split; ord HO. }
    intros v. destruct C as [C|C].
    - assert (E1 : omax (lo X) (lo Y) = lo Y) by (unfold omax; replace (o_lt (lo X) (lo Y)) with true by (symmetry; ord HO); reflexivity).
      assert (E2 : omin (hi X) (hi Y) = hi X) by (unfold omin; replace (o_lt (hi Y) (hi X)) with false by (symmetry; destruct (o_lt (hi Y) (hi X)) eqn:Q; [exfalso; ord HO|reflexivity]); reflexivity).
      rewrite E1, E2. assert (E3 : omin (lo Y) (hi X) = hi X) by (unfold omin; rewrite C; reflexivity).
      assert (E4 : omax (lo Y) (hi X) = lo Y) by (unfold omax; replace (o_lt (lo Y) (hi X)) with false by (symmetry; destruct (o_lt (lo Y) (hi X)) eqn:Q; [exfalso; ord HO|reflexivity]); reflexivity).
      rewrite E3, E4. split.
      + intros [V1 V2]. left. intros x y [X1 X2] [Y1 Y2]. split; ord HO.
      + intros [H|H].
        * destruct (H (hi X) (lo Y)) as [V1 V2]; [split; ord HO..|]. now split.
        * exfalso. destruct (H (hi X) (lo Y)) as [V1 V2]; [split; ord HO..|]. ord HO.
    - assert (E1 : omax (lo X) (lo Y) = lo X) by (unfold omax; replace (o_lt (lo X) (lo Y)) with false by (symmetry; destruct (o_lt (lo X) (lo Y)) eqn:Q; [exfalso; ord HO|reflexivity]); reflexivity).
      assert (E2 : omin (hi X) (hi Y) = hi Y) by (unfold omin; replace (o_lt (hi Y) (hi X)) with true by (symmetry; ord HO); reflexivity).
      rewrite E1, E2. assert (E3 : omin (lo X) (hi Y) = hi Y) by (unfold omin; rewrite C; reflexivity).
      assert (E4 : omax (lo X) (hi Y) = lo X) by (unfold omax; replace (o_lt (lo X) (hi Y)) with false by (symmetry; destruct (o_lt (lo X) (hi Y)) eqn:Q; [exfalso; ord HO|reflexivity]); reflexivity).
      rewrite E3, E4. split.
      + intros [V1 V2]. right. intros x y [X1 X2] [Y1 Y2]. split; ord HO.
      + intros [H|H].
        * exfalso. destruct (H (lo X) (hi Y)) as [V1 V2]; [split; ord HO..|]. ord HO.
        * destruct (H (lo X) (hi Y)) as [V1 V2]; [split; ord HO..|]. now split.
  Qed.
  Lemma intersect_returns X l : proper X -> Forall proper l -> exists Z, intersect X l = Ret Z /\ proper Z.
  Proof.
    unfold intersect. revert X. induction l as [|Y l IH]; intros X HX Hl; [now exists X|].
    inversion Hl as [|? ? HY Hl']; subst. destruct (narrow_interval_common X Y HX HY) as (X' & HX' & Hp & _). cbn. rewrite HX'. cbn. now apply IH.
  Qed.

  (** ** free assignment functions (C39) *)
  Lemma free_assign_spec X Y : (assigned X = false -> free_assign X Y = Ret Y) /\ (assigned X = true -> free_assign X Y = FailFast).
  Proof. unfold free_assign. split; intros ->; cbn; [|reflexivity]. destruct Y; reflexivity. Qed.

  (** ** printing (C52) *)
  Lemma iprint_proper dbg X : proper X ->
    exists l, iprint dbg X = Ret l /\
      ((forall v w, el X v -> el X w -> same_value v w) -> l = [TNum (lo X)])
      /\ ((exists v w, el X v /\ el X w /\ ~ same_value v w) -> l = [TLBracket; TNum (lo X); TCommaSpace; TNum (hi X); TRBracket]).
  Proof.
    intros HX. unfold iprint. rewrite (proper_assigned X HX). eexists. split; [destruct dbg; reflexivity|]. split.
    - intros H. unfold same_value in H. now rewrite (H _ _ (el_lower X HX) (el_upper X HX)).
    - intros (v & w & [H1 H2] & [H3 H4] & Hn). destruct (o_eq (lo X) (hi X)) eqn:E; [|reflexivity].
      exfalso. apply Hn. unfold same_value. ord HO.
  Qed.
  Lemma iprint_unassigned X : assigned X = false -> iprint true X = FailFast.
  Proof. intros H. unfold iprint. now rewrite H. Qed.
End Ord.
