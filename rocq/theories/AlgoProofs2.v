(** Constraints by a partition. *)
From Coq Require Import Bool List Arith ZArith Lia.
From Verif Require Import Outcome SetModel Spec SetProofs Num NumLaws IntervalModel IvlSpec IvlProofs IntNum IntProofs IterModel IterProofs ConstrainModel CondSpec
  ConstrainProofs ConstrainProofs2 ConstrainProofs4 ConstrainProofs5 ConstrainProofs6 ConstrainWrap AlgoModel AlgoSpec AlgoProofs.
Import ListNotations.
Open Scope nat_scope.

Lemma elem_ok {A : Type} (r : list A) (i : Z) : (0 <= i < size r)%Z -> exists e, elem r i = Ret e /\ nth_error r (Z.to_nat i) = Some e.
Proof.
  intros H. unfold elem. rewrite (proj2 (Z.ltb_ge _ _)) by lia. destruct (nth_error r (Z.to_nat i)) as [e|] eqn:E; [eauto|]. apply nth_error_None in E. lia.
Qed.

Section Partition.
  Context {O : ordty} (HO : ord_laws O) (dbg : bool).
  Notation index := (int_ordty 64).
  Implicit Types (r : list O) (v e w : O) (V X Z : ivl O) (I : arg index).

  Lemma part_index_ok r I : index_ok r I -> part_index dbg r I = Ret I.
  Proof.
    intros (Hp & H0 & H1). unfold part_index. destruct I as [k|K]; cbn in *.
    - rewrite (proj2 (Z.leb_le _ _) H0), (proj2 (Z.leb_le _ _) H1). now destruct dbg.
    - unfold aproper in Hp. cbn in Hp. rewrite (proper_assigned (int_ord_laws 64) K Hp). cbn. rewrite (proj2 (Z.leb_le _ _) H0), (proj2 (Z.leb_le _ _) H1). now destruct dbg.
  Qed.
  Lemma index_le I : aproper I -> (val (alower I) <= val (aupper I))%Z.
  Proof. intros H. unfold aproper in H. cbn in H. now apply Z.leb_le. Qed.

  (** The predicate is given by a formula [F e] for every element [e]. *)
  Context (F : O -> cform O) (p : O -> outcome (cond O)) (Hp : forall e, p e = build dbg (F e)).
  Lemma part_sound x X r I v : index_ok r I -> el X v ->
    ((0 < val (alower I))%Z -> forall e, nth_error r (Z.to_nat (val (alower I) - 1)) = Some e -> exists Z, constrain_by dbg x X (F e) = Ret Z /\ el Z v) ->
    ((val (aupper I) < size r)%Z -> forall e, nth_error r (Z.to_nat (val (aupper I))) = Some e -> exists Z, constrain_by dbg x X (GNot (F e)) = Ret Z /\ el Z v) ->
    exists Z, part_constrain dbg x X p r I = Ret Z /\ el Z v.
  Proof.
    intros HI Hv Hl Hu. unfold part_constrain. rewrite (part_index_ok r I HI). cbn [bind]. destruct r as [|a r']; [eauto|]. set (r := a :: r') in *.
    destruct HI as (HI & H0 & H1). pose proof (index_le I HI) as HI'.
    assert (El : exists Z, (if (0 <? val (alower I))%Z then e <- elem r (val (alower I) - 1);; c <- p e;; constrain dbg x X c else Ret X) = Ret Z /\ el Z v).
    { destruct (Z.ltb_spec 0 (val (alower I))) as [L|L]; [|eauto]. destruct (elem_ok r (val (alower I) - 1)) as (e & -> & E); [lia|]. cbn [bind].
      rewrite Hp. apply (Hl L e E). }
    assert (Eu : exists Z, (if (val (aupper I) <? size r)%Z then e <- elem r (val (aupper I));; c <- p e;; c <- c_not dbg c ;; constrain dbg x X c else Ret X) = Ret Z /\ el Z v).
    { destruct (Z.ltb_spec (val (aupper I)) (size r)) as [L|L]; [|eauto]. destruct (elem_ok r (val (aupper I))) as (e & -> & E); [lia|]. cbn [bind].
      rewrite Hp. destruct (Hu L e E) as (Z & HZ & Ez). exists Z. split; [|exact Ez]. rewrite <- HZ. unfold constrain_by. cbn [build]. now destruct (build dbg (F e)). }
    destruct El as (Z1 & -> & [L1 U1]). cbn [bind]. destruct Eu as (Z2 & -> & [L2 U2]). cbn [bind].
    rewrite (ol_trans _ HO _ _ _ L2 U1), (ol_trans _ HO _ _ _ L1 U2). cbn [andb expects_debug]. replace (expects_debug dbg true) with (Ret tt) by now destruct dbg. cbn [bind].
    pose proof (omax_lub _ _ _ L1 L2) as L. pose proof (omin_glb _ _ _ U1 U2) as U. rewrite (mk_proper HO _ _ (ol_trans _ HO _ _ _ L U)).
    eexists. split; [reflexivity|]. split; assumption.
  Qed.
  Lemma part_tight x X r I Z (P Q : O -> O -> Prop) : index_ok r I -> proper X ->
    (forall e Z', constrain_by dbg x X (F e) = Ret Z' -> In e r -> proper Z' /\ forall w, el Z' w <-> el X w /\ P e w) ->
    (forall e Z', constrain_by dbg x X (GNot (F e)) = Ret Z' -> In e r -> proper Z' /\ forall w, el Z' w <-> el X w /\ Q e w) ->
    part_constrain dbg x X p r I = Ret Z ->
    forall w, el Z w <-> el X w
      /\ ((0 < val (alower I))%Z -> forall e, nth_error r (Z.to_nat (val (alower I) - 1)) = Some e -> P e w)
      /\ ((val (aupper I) < size r)%Z -> forall e, nth_error r (Z.to_nat (val (aupper I))) = Some e -> Q e w).
  Proof.
    intros HI HX Hl Hu H w. unfold part_constrain in H. rewrite (part_index_ok r I HI) in H. cbn [bind] in H. destruct HI as (HI & H0 & H1). pose proof (index_le I HI) as HI'.
    destruct r as [|a r'].
    { injection H as <-. cbn in H1. split; [|tauto]. intros Hw. split; [exact Hw|]. split; cbn; intros L e E; exfalso; [destruct (Z.to_nat _)|]; lia || discriminate E. }
    set (r := a :: r') in *.
    apply bind_inv in H as (Z1 & E1 & H). apply bind_inv in H as (Z2 & E2 & H). apply bind_inv in H as (u & _ & H). apply mk_iff in H as [-> H].
    assert (A1 : proper Z1 /\ forall w, el Z1 w <-> el X w /\ ((0 < val (alower I))%Z -> forall e, nth_error r (Z.to_nat (val (alower I) - 1)) = Some e -> P e w)).
    { destruct (Z.ltb_spec 0 (val (alower I))) as [L|L]; [|injection E1 as <-; split; [exact HX|]; intros w'; split; [|tauto]; intros; split; [assumption|lia]].
      destruct (elem_ok r (val (alower I) - 1)) as (e & Ee & E); [lia|]. rewrite Ee in E1. cbn [bind] in E1. rewrite Hp in E1.
      destruct (Hl e Z1 E1 (nth_error_In _ _ E)) as [Hp1 Hw1]. split; [exact Hp1|]. intros w'. rewrite Hw1. split; intros [A B]; (split; [exact A|]).
      - intros _ e' E'. rewrite E in E'. now injection E' as <-.
      - now apply B. }
    assert (A2 : proper Z2 /\ forall w, el Z2 w <-> el X w /\ ((val (aupper I) < size r)%Z -> forall e, nth_error r (Z.to_nat (val (aupper I))) = Some e -> Q e w)).
    { destruct (Z.ltb_spec (val (aupper I)) (size r)) as [L|L]; [|injection E2 as <-; split; [exact HX|]; intros w'; split; [|tauto]; intros; split; [assumption|lia]].
      destruct (elem_ok r (val (aupper I))) as (e & Ee & E); [lia|]. rewrite Ee in E2. cbn [bind] in E2. rewrite Hp in E2.
      assert (E3 : constrain_by dbg x X (GNot (F e)) = Ret Z2). { rewrite <- E2. unfold constrain_by. cbn [build]. now destruct (build dbg (F e)). }
      destruct (Hu e Z2 E3 (nth_error_In _ _ E)) as [Hp1 Hw1]. split; [exact Hp1|]. intros w'. rewrite Hw1. split; intros [A B]; (split; [exact A|]).
      - intros _ e' E'. rewrite E in E'. now injection E' as <-.
      - now apply B. }
    clear E1 E2 Hl Hu. destruct A1 as [P1 A1]. destruct A2 as [P2 A2].
    destruct (proper_oks HO Z1 P1). destruct (proper_oks HO Z2 P2).
    assert (el (Ivl (omax (lo Z1) (lo Z2)) (omin (hi Z1) (hi Z2))) w <-> el Z1 w /\ el Z2 w) as ->.
    { unfold el. cbn. rewrite (omax_le HO), (le_omin HO) by assumption. tauto. }
    rewrite A1, A2. tauto.
  Qed.
End Partition.

Section Bounds.
  Context {O : ordty} (HO : ord_laws O) (dbg : bool).
  Notation index := (int_ordty 64).
  Implicit Types (r : list O) (v e w : O) (V X Z : ivl O) (I : arg index).
  Let Fl x V e : cform O := GRel RLt (TVal (Sc e)) (TVar x V).
  Let Fu x V e : cform O := GNot (GRel RLt (TVar x V) (TVal (Sc e))).
  Lemma Fl_legal x V e : proper V -> ok e -> legal (Fl x V e).
  Proof. intros HV He. exact (legal_lt (TVal (Sc e)) (TVar x V) He HV). Qed.
  Lemma Fu_legal x V e : proper V -> ok e -> legal (Fu x V e).
  Proof. intros HV He. exact (legal_lt (TVar x V) (TVal (Sc e)) HV He). Qed.
  Lemma sound_at x X (f : cform O) v : legal f -> unmixed f = true -> conjunctive (nnf true f) = true -> mentions x f = true -> inside (fun _ => v) f -> el X v ->
    truth (fun _ => v) f true -> exists Z, constrain_by dbg x X f = Ret Z /\ el Z v.
  Proof. intros. apply (constrain_sound HO dbg x f X (fun _ => v)); assumption. Qed.
  Lemma sc_ael e : ok e -> ael (Sc e) e. Proof. intros H. split; exact H. Qed.

  (** Positions of a value that is consistent with the index. *)
  Lemma lower_part_sound x V X r I v k : index_ok r I -> sorted r -> el V v -> el X v -> lower_bound_at r v k -> index_in I k ->
    exists Z, part_constrain dbg x X (lower_pred dbg (OpId x V)) r I = Ret Z /\ el Z v.
  Proof.
    intros HI S HV HX (Hk & Sk) Hin. pose proof (sorted_ok r S) as Hok. pose proof (el_proper HO V v HV) as PV. destruct HI as (A & B & C). unfold index_in in Hin.
    apply (part_sound HO dbg (Fl x V)); [reflexivity|exact (conj A (conj B C))|exact HX| |].
    - intros L e E. pose proof (Hok e (nth_error_In _ _ E)) as He. apply (sound_at x); [now apply Fl_legal|reflexivity|reflexivity|cbn; now rewrite Nat.eqb_refl|split; [exact Logic.I|exact HV]|exact HX|].
      replace true with (rel_holds RLt e v); [apply (tr_rel _ RLt); [exact (sc_ael e He)|reflexivity]|]. cbn. apply (proj1 (Sk _ _ E)). lia.
    - intros L e E. pose proof (Hok e (nth_error_In _ _ E)) as He. apply (sound_at x); [now apply Fl_legal|reflexivity|reflexivity|cbn; now rewrite Nat.eqb_refl|split; [exact Logic.I|exact HV]|exact HX|].
      replace true with (negb (rel_holds RLt e v)); [apply tr_not, (tr_rel _ RLt); [exact (sc_ael e He)|reflexivity]|]. cbn. apply negb_true_iff.
      apply not_true_is_false. apply (proj2 (Sk _ _ E)). lia.
  Qed.
  Lemma upper_part_sound x V X r I v k : index_ok r I -> sorted r -> el V v -> el X v -> upper_bound_at r v k -> index_in I k ->
    exists Z, part_constrain dbg x X (upper_pred dbg (OpId x V)) r I = Ret Z /\ el Z v.
  Proof.
    intros HI S HV HX (Hk & Sk) Hin. pose proof (sorted_ok r S) as Hok. pose proof (el_proper HO V v HV) as PV. destruct HI as (A & B & C). unfold index_in in Hin.
    apply (part_sound HO dbg (Fu x V)); [reflexivity|exact (conj A (conj B C))|exact HX| |].
    - intros L e E. pose proof (Hok e (nth_error_In _ _ E)) as He. apply (sound_at x); [now apply Fu_legal|reflexivity|reflexivity|cbn; now rewrite Nat.eqb_refl|split; [exact HV|exact Logic.I]|exact HX|].
      replace true with (negb (rel_holds RLt v e)); [apply tr_not, (tr_rel _ RLt); [reflexivity|exact (sc_ael e He)]|]. cbn. apply negb_true_iff. apply (proj1 (Sk _ _ E)). lia.
    - intros L e E. pose proof (Hok e (nth_error_In _ _ E)) as He. apply (sound_at x); [now apply Fu_legal|reflexivity|reflexivity|cbn; now rewrite Nat.eqb_refl|split; [exact HV|exact Logic.I]|exact HX|].
      replace true with (negb (negb (rel_holds RLt v e))); [apply tr_not, tr_not, (tr_rel _ RLt); [reflexivity|exact (sc_ael e He)]|]. cbn. rewrite negb_involutive.
      apply not_false_is_true. apply (proj2 (Sk _ _ E)). lia.
  Qed.

  Let before (e w : O) : Prop := (if o_disc O then o_lt e w else o_le e w) = true.
  Lemma rel_tight x (R : rel) (s t : term O) X Z : legal (GRel R s t) -> proper X -> occurs_as x X (GRel R s t) -> R <> RNe ->
    xorb (tmentions x s) (tmentions x t) = true -> constrain_by dbg x X (GRel R s t) = Ret Z ->
    proper Z /\ forall v, el Z v <-> solution x (if o_disc O then R else rel_weak R) s t v.
  Proof.
    intros L PX Oc NR M H. split; [|exact (constrain_tight HO dbg x R s t X Z L PX Oc NR M H)].
    apply (constrain_within HO dbg x (GRel R s t) X Z L PX Oc H).
  Qed.
  Lemma lt_sc (R : rel) e w : ok e -> (exists d, ael (Sc e) d /\ rel_holds R d w = true) <-> rel_holds R e w = true.
  Proof.
    intros He. split.
    - intros (d & [L1 L2] & H). cbn in L1, L2. destruct R; cbn in *; clear - HO L1 L2 H He; ord HO.
    - intros H. exists e. split; [exact (sc_ael e He)|exact H].
  Qed.
  Lemma sc_gt (R : rel) e w : ok e -> (exists d, ael (Sc e) d /\ rel_holds R w d = true) <-> rel_holds R w e = true.
  Proof.
    intros He. split.
    - intros (d & [L1 L2] & H). cbn in L1, L2. destruct R; cbn in *; clear - HO L1 L2 H He; ord HO.
    - intros H. exists e. split; [exact (sc_ael e He)|exact H].
  Qed.
  Lemma by_neg x X f : legal f -> comparisons f = true -> constrain_by dbg x X (GNot f) = constrain_by dbg x X (nnf false f).
  Proof. intros L C. unfold constrain_by. now rewrite (negation_inwards HO dbg f L C). Qed.
  Lemma by_dneg x X f : legal f -> comparisons f = true -> constrain_by dbg x X (GNot (GNot f)) = constrain_by dbg x X f.
  Proof. intros L C. unfold constrain_by. now rewrite (double_negation HO dbg f L C). Qed.

  Lemma lower_part_tight x V r I Z : index_ok r I -> sorted r -> proper V ->
    part_constrain dbg x V (lower_pred dbg (OpId x V)) r I = Ret Z ->
    forall w, el Z w <-> el V w
      /\ ((0 < val (alower I))%Z -> forall e, nth_error r (Z.to_nat (val (alower I) - 1)) = Some e -> before e w)
      /\ ((val (aupper I) < size r)%Z -> forall e, nth_error r (Z.to_nat (val (aupper I))) = Some e -> o_le w e = true).
  Proof.
    intros HI S PV. pose proof (sorted_ok r S) as Hok. apply (part_tight HO dbg (Fl x V)) with (Q := fun e w => o_le w e = true); [reflexivity|exact HI|exact PV| |].
    - intros e Z' H He. apply Hok in He. destruct (rel_tight x RLt (TVal (Sc e)) (TVar x V) V Z') as [P1 P2]; [now apply Fl_legal|exact PV|split; [exact Logic.I|reflexivity]|discriminate|cbn; now rewrite Nat.eqb_refl|exact H|].
      split; [exact P1|]. intros w. rewrite P2. unfold solution, before. cbn [tmentions tel]. rewrite Nat.eqb_refl.
      destruct (o_disc O); cbn [rel_weak]; rewrite (lt_sc _ e w He); cbn; intuition discriminate.
    - intros e Z' H He. apply Hok in He. rewrite (by_neg x V (Fl x V e) (Fl_legal x V e PV He) eq_refl) in H. cbn in H.
      destruct (rel_tight x RGe (TVal (Sc e)) (TVar x V) V Z') as [P1 P2]; [split; [split; assumption|exact Logic.I]|exact PV|split; [exact Logic.I|reflexivity]|discriminate|cbn; now rewrite Nat.eqb_refl|exact H|].
      split; [exact P1|]. intros w. rewrite P2. unfold solution. cbn [tmentions tel]. rewrite Nat.eqb_refl.
      destruct (o_disc O); cbn [rel_weak]; rewrite (lt_sc _ e w He); cbn; intuition discriminate.
  Qed.
  Lemma upper_part_tight x V r I Z : index_ok r I -> sorted r -> proper V ->
    part_constrain dbg x V (upper_pred dbg (OpId x V)) r I = Ret Z ->
    forall w, el Z w <-> el V w
      /\ ((0 < val (alower I))%Z -> forall e, nth_error r (Z.to_nat (val (alower I) - 1)) = Some e -> o_le e w = true)
      /\ ((val (aupper I) < size r)%Z -> forall e, nth_error r (Z.to_nat (val (aupper I))) = Some e -> before w e).
  Proof.
    intros HI S PV. pose proof (sorted_ok r S) as Hok. apply (part_tight HO dbg (Fu x V)) with (P := fun e w => o_le e w = true) (Q := fun e w => before w e); [reflexivity|exact HI|exact PV| |].
    - intros e Z' H He. apply Hok in He. pose proof (Fu_legal x V e PV He) as LF. unfold Fu in H. rewrite by_neg in H; [|exact LF|reflexivity]. cbn in H.
      destruct (rel_tight x RGe (TVar x V) (TVal (Sc e)) V Z') as [P1 P2]; [split; [split; assumption|exact Logic.I]|exact PV|split; [reflexivity|exact Logic.I]|discriminate|cbn; now rewrite Nat.eqb_refl|exact H|].
      split; [exact P1|]. intros w. rewrite P2. unfold solution. cbn [tmentions tel]. rewrite Nat.eqb_refl.
      destruct (o_disc O); cbn [rel_weak]; rewrite (sc_gt _ e w He); cbn; intuition discriminate.
    - intros e Z' H He. apply Hok in He. pose proof (Fu_legal x V e PV He) as LF. unfold Fu in H. rewrite by_dneg in H; [|exact LF|reflexivity].
      destruct (rel_tight x RLt (TVar x V) (TVal (Sc e)) V Z') as [P1 P2]; [exact LF|exact PV|split; [reflexivity|exact Logic.I]|discriminate|cbn; now rewrite Nat.eqb_refl|exact H|].
      split; [exact P1|]. intros w. rewrite P2. unfold solution, before. cbn [tmentions tel]. rewrite Nat.eqb_refl.
      destruct (o_disc O); cbn [rel_weak]; rewrite (sc_gt _ e w He); cbn; intuition discriminate.
  Qed.

  (** Discrete value types: the result has exactly the elements whose position is denoted by the index. *)
  Lemma positions (q : O -> Prop) r I k : index_ok r I -> splits q r k ->
    (index_in I k <-> ((0 < val (alower I))%Z -> forall e, nth_error r (Z.to_nat (val (alower I) - 1)) = Some e -> q e)
      /\ ((val (aupper I) < size r)%Z -> forall e, nth_error r (Z.to_nat (val (aupper I))) = Some e -> ~ q e)).
  Proof.
    intros (A & B & C) (Hk & S). pose proof (index_le I A) as D. unfold index_in. split.
    - intros H. split; intros L e E; [apply (proj1 (S _ _ E))|apply (proj2 (S _ _ E))]; lia.
    - intros [H1 H2]. split.
      + destruct (Z.le_gt_cases (val (alower I)) (Z.of_nat k)) as [L|L]; [exact L|exfalso]. destruct (elem_ok r (val (alower I) - 1)) as (e & _ & E); [lia|].
        apply (proj2 (S _ _ E)); [lia|]. apply H1; [lia|exact E].
      + destruct (Z.le_gt_cases (Z.of_nat k) (val (aupper I))) as [L|L]; [exact L|exfalso]. destruct (elem_ok r (val (aupper I))) as (e & _ & E); [lia|].
        apply (H2 ltac:(lia) e E). apply (proj1 (S _ _ E)). lia.
  Qed.
  Lemma lower_part_exact x V r I Z : o_disc O = true -> index_ok r I -> sorted r -> proper V ->
    part_constrain dbg x V (lower_pred dbg (OpId x V)) r I = Ret Z ->
    forall w, el Z w <-> el V w /\ exists k, lower_bound_at r w k /\ index_in I k.
  Proof.
    intros D HI S PV H w. rewrite (lower_part_tight x V r I Z HI S PV H w). unfold before. rewrite D. pose proof (sorted_ok r S) as Hok.
    destruct (lower_exists HO r w S) as (k & Sk). split.
    - intros (Hw & A & B). split; [exact Hw|]. exists k. split; [exact Sk|]. apply (proj2 (positions _ r I k HI Sk)). split; [exact A|].
      intros L e E. specialize (B L e E). clear - HO B. ord HO.
    - intros (Hw & k' & Sk' & Hin). split; [exact Hw|]. apply (proj1 (positions _ r I k' HI Sk')) in Hin as [A B]. split; [exact A|]. intros L e E.
      pose proof (B L e E) as N. pose proof (Hok e (nth_error_In _ _ E)). pose proof (el_ok HO V w Hw). apply not_true_is_false in N. clear - HO N H0 H1. ord HO.
  Qed.
  Lemma upper_part_exact x V r I Z : o_disc O = true -> index_ok r I -> sorted r -> proper V ->
    part_constrain dbg x V (upper_pred dbg (OpId x V)) r I = Ret Z ->
    forall w, el Z w <-> el V w /\ exists k, upper_bound_at r w k /\ index_in I k.
  Proof.
    intros D HI S PV H w. rewrite (upper_part_tight x V r I Z HI S PV H w). unfold before. rewrite D. pose proof (sorted_ok r S) as Hok. split.
    - intros (Hw & A & B). split; [exact Hw|]. destruct (upper_exists HO r w S (el_ok HO V w Hw)) as (k & Sk). exists k. split; [exact Sk|].
      apply (proj2 (positions _ r I k HI Sk)). split; [|intros L e E; rewrite (B L e E); discriminate].
      intros L e E. specialize (A L e E). clear - HO A. ord HO.
    - intros (Hw & k' & Sk' & Hin). split; [exact Hw|]. apply (proj1 (positions _ r I k' HI Sk')) in Hin as [A B]. split.
      + intros L e E. specialize (A L e E). pose proof (Hok e (nth_error_In _ _ E)). pose proof (el_ok HO V w Hw). clear - HO A H0 H1. ord HO.
      + intros L e E. now apply not_false_is_true, (B L e E).
  Qed.

  (** A temporary interval: the predicate refers to a copy, which no object is. *)
  Lemma part_temporary x V X r I e : index_ok r I -> sorted r -> proper V -> (0 < val (alower I))%Z -> nth_error r 0 = Some e ->
    part_constrain dbg x X (lower_pred dbg (OpVal (Iv V))) r I = FailFast.
  Proof.
    intros HI S PV L E0. unfold part_constrain. rewrite (part_index_ok dbg r I HI). cbn [bind]. destruct r as [|a r']; [discriminate E0|]. set (r := a :: r') in *.
    destruct HI as (A & B & C). pose proof (index_le I A). rewrite (proj2 (Z.ltb_lt _ _) L). destruct (elem_ok r (val (alower I) - 1)) as (d & -> & E); [lia|]. cbn [bind].
    pose proof (sorted_ok r S d (nth_error_In _ _ E)) as Hd.
    change (c <- lower_pred dbg (OpVal (Iv V)) d;; constrain dbg x X c) with (constrain_by dbg x X (GRel RLt (TVal (Sc d)) (TVal (Iv V)))).
    rewrite (constrain_other HO dbg x _ X); [reflexivity|reflexivity|split; [split; [exact Hd|exact PV]|exact Logic.I]].
  Qed.

  (** Scalars. *)
  Lemma scalar_part r I (v : O) (q : O -> bool) k : index_ok r I -> splits (fun e => q e = true) r k -> index_in I k ->
    part_constrain_scalar dbg v (fun e => Ret (q e)) r I = Ret v.
  Proof.
    intros HI S Hin. unfold part_constrain_scalar. rewrite (part_index_ok dbg r I HI). cbn [bind]. destruct r as [|a r']; [reflexivity|]. set (r := a :: r') in *.
    pose proof (proj1 (positions _ r I k HI S) Hin) as [H1 H2]. destruct HI as (A & B & C). pose proof (index_le I A).
    destruct dbg; cbn [andb]; [|reflexivity]. destruct (Z.ltb_spec 0 (val (alower I))) as [L|L]; [destruct (elem_ok r (val (alower I) - 1)) as (d & -> & E); [lia|]; cbn [bind]; rewrite (H1 L d E)|];
      cbn [expects bind]; (destruct (Z.ltb_spec (val (aupper I)) (size r)) as [L'|L']; [destruct (elem_ok r (val (aupper I))) as (d' & -> & E'); [lia|]; cbn [bind]; rewrite (proj1 (not_true_iff_false _) (H2 L' d' E'))|]); reflexivity.
  Qed.
  Lemma scalar_part_bad r I (v : O) (q : O -> bool) k : index_ok r I -> splits (fun e => q e = true) r k -> ~ index_in I k -> part_constrain_scalar true v (fun e => Ret (q e)) r I = FailFast.
  Proof.
    intros HI S Hin. unfold part_constrain_scalar. rewrite (part_index_ok true r I HI). cbn [bind].
    pose proof (positions _ r I k HI S) as Hpos. destruct HI as (A & B & C). pose proof (index_le I A). destruct r as [|a r'].
    { exfalso. apply Hin. cbn in C. destruct S as [Sk _]. cbn in Sk. unfold index_in. lia. }
    set (r := a :: r') in *. cbn [andb]. destruct (Z.ltb_spec 0 (val (alower I))) as [L|L].
    - destruct (elem_ok r (val (alower I) - 1)) as (d & -> & E); [lia|]; cbn [bind]. destruct (q d) eqn:Q; [cbn [expects bind]|reflexivity].
      destruct (Z.ltb_spec (val (aupper I)) (size r)) as [L'|L'].
      + destruct (elem_ok r (val (aupper I))) as (d' & -> & E'); [lia|]; cbn [bind]. destruct (q d') eqn:Q'; [reflexivity|]. exfalso. apply Hin, Hpos.
        split; intros _ e Ee; [rewrite E in Ee|rewrite E' in Ee]; injection Ee as <-; congruence.
      + exfalso. apply Hin, Hpos. split; [|lia]. intros _ e Ee; rewrite E in Ee; injection Ee as <-; congruence.
    - cbn [expects bind]. destruct (Z.ltb_spec (val (aupper I)) (size r)) as [L'|L'].
      + destruct (elem_ok r (val (aupper I))) as (d' & -> & E'); [lia|]; cbn [bind]. destruct (q d') eqn:Q'; [reflexivity|]. exfalso. apply Hin, Hpos.
        split; [lia|]. intros _ e Ee; rewrite E' in Ee; injection Ee as <-; congruence.
      + exfalso. apply Hin, Hpos. split; lia.
  Qed.
End Bounds.
