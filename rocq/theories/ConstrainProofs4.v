(** Proofs about [constrain] on any condition. *)
From Coq Require Import Bool List Arith.
From Verif Require Import Outcome SetModel Spec SetProofs SetProofs2 Num NumLaws IntervalModel IvlSpec IvlProofs ConstrainModel CondSpec
  ConstrainProofs ConstrainProofs2 ConstrainProofs3.
Import ListNotations.

Section Cond.
  Context {O : ordty} (HO : ord_laws O) (dbg : bool) (x : nat).
  Implicit Types (X Y Z : ivl O) (c : cond O) (l r : operand O) (a b : O) (f g : cform O) (rho : nat -> O).

  Lemma op_is_term (t : term O) : op_is x (operand_of t) = tmentions x t.
  Proof. now destruct t. Qed.

  Lemma rel_keep (R : rel) (s t : term O) X a b (cons opt : bool) : legal (GRel R s t) ->
    tel s a -> tel t b -> rel_holds R a b = true -> (tmentions x s = true -> el X a) -> (tmentions x t = true -> el X b) ->
    exists Z, dconstrain dbg x X (rel_value R s t) cons opt = Ret (Z, cons || mentions x (GRel R s t))
      /\ (tmentions x s = true -> tmentions x t = false -> el Z a) /\ (tmentions x t = true -> tmentions x s = false -> el Z b)
      /\ (tmentions x s = true -> tmentions x t = true -> el Z a \/ el Z b) /\ (tmentions x s = false -> tmentions x t = false -> Z = X).
  Proof.
    intros L Hs Ht Hr Xa Xb.
    assert (M : member (cset (rel_value R s t)) true).
    { apply (rel_wfc HO R s t L). apply possible_rel. exists a, b. auto. }
    apply term_el in Hs. apply term_el in Ht. cbn [mentions]. rewrite <- !op_is_term in *.
    destruct R; cbn [rel_value cset rel_holds] in *.
    - destruct (eq_keep HO dbg x _ _ _ X a b cons opt M Hs Ht Hr Xa Xb) as (Z & E & K1 & K2 & K3 & K4). exists Z. auto.
    - destruct (ne_keep HO dbg x _ _ _ X a b cons opt M Hs Ht Hr Xa Xb) as (Z & E & K1 & K2 & K3 & K4). exists Z. auto.
    - destruct (lt_keep HO dbg x _ _ _ X a b cons opt M Hs Ht Hr Xa Xb) as (Z & E & K1 & K2 & K3 & K4). exists Z. auto.
    - destruct (le_keep HO dbg x _ _ _ X a b cons opt M Hs Ht Hr Xa Xb) as (Z & E & K1 & K2 & K3 & K4). exists Z. auto.
    - destruct (lt_keep HO dbg x _ _ _ X b a cons opt M Ht Hs Hr Xb Xa) as (Z & E & K1 & K2 & K3 & K4). exists Z.
      rewrite (orb_comm (op_is x (operand_of s))). split; [exact E|]. split; [auto|split; [auto|split; [intros A B; destruct (K3 B A); auto|auto]]].
    - destruct (le_keep HO dbg x _ _ _ X b a cons opt M Ht Hs Hr Xb Xa) as (Z & E & K1 & K2 & K3 & K4). exists Z.
      rewrite (orb_comm (op_is x (operand_of s))). split; [exact E|]. split; [auto|split; [auto|split; [intros A B; destruct (K3 B A); auto|auto]]].
  Qed.

  Lemma rel_impossible (R : rel) (s t : term O) X (cons opt : bool) : legal (GRel R s t) -> ~ possible (GRel R s t) true ->
    dconstrain dbg x X (rel_value R s t) cons opt =
      if mentions x (GRel R s t) && negb opt then FailFast else Ret (X, cons || mentions x (GRel R s t)).
  Proof.
    intros L N. assert (M : bcontains (cset (rel_value R s t)) true = false).
    { destruct (bcontains (cset (rel_value R s t)) true) eqn:E; [|reflexivity]. exfalso. apply N. apply (rel_wfc HO R s t L). now apply bmember_iff. }
    cbn [mentions]. rewrite <- !op_is_term. destruct R; cbn [rel_value cset] in M |- *; cbn [dconstrain]; rewrite M;
      destruct (op_is x (operand_of s)), (op_is x (operand_of t)), opt; cbn; rewrite ?orb_true_r, ?orb_false_r; try reflexivity.
  Qed.

  Lemma possible_dec f (b : bool) : legal f -> possible f b \/ ~ possible f b.
  Proof.
    intros L. destruct (build_ok HO dbg f L) as (c & _ & _ & M). rewrite <- M, bmember_iff. destruct (bcontains (cset c) b); [now left|right; discriminate].
  Qed.

  Lemma dc_plain X c (cons opt : bool) : is_cond c = false -> dconstrain dbg x X c cons opt = Ret (X, cons).
  Proof. destruct c; cbn; try discriminate; reflexivity. Qed.
  Lemma plain_mentions f : plain f = true -> mentions x f = false.
  Proof.
    induction f as [b|s|r s t|f IH|f IHf g IHg|f IHf g IHg]; cbn; try discriminate; auto; intros H; apply andb_true_iff in H; destruct H; rewrite IHf, IHg; auto.
  Qed.
  Lemma c_and_shape (cl cr : cond O) : c_and cl cr = CAnd (and_value cl cr) cl cr \/ (is_cond (c_and cl cr) = false /\ is_cond cl = false /\ is_cond cr = false).
  Proof.
    unfold c_and. destruct (is_cond cl) eqn:E1; [now left|]. destruct (is_cond cr) eqn:E2; [now left|]. right. cbn.
    destruct cl; try discriminate E1; destruct cr; try discriminate E2; auto.
  Qed.
  Lemma c_or_shape (cl cr : cond O) : c_or cl cr = COr (or_value cl cr) cl cr \/ (is_cond (c_or cl cr) = false /\ is_cond cl = false /\ is_cond cr = false).
  Proof.
    unfold c_or. destruct (is_cond cl) eqn:E1; [now left|]. destruct (is_cond cr) eqn:E2; [now left|]. right. cbn.
    destruct cl; try discriminate E1; destruct cr; try discriminate E2; auto.
  Qed.
  Lemma not_cond_mentions f c : legal f -> build dbg f = Ret c -> is_cond c = false -> conjunctive f = true -> mentions x f = false.
  Proof.
    revert c. induction f as [b|s|r s t|f IH|f IHf g IHg|f IHf g IHg]; intros c L E I C; try reflexivity.
    - rewrite (rel_build HO dbg r s t L) in E. injection E as <-. destruct r; discriminate I.
    - cbn in C. now apply plain_mentions.
    - cbn in C. apply andb_true_iff in C. destruct C as [C1 C2]. apply legal_and in L. destruct L as [L1 L2]. cbn in E.
      destruct (build dbg f) as [l| | | |]; try discriminate. destruct (build dbg g) as [r| | | |]; try discriminate. cbn in E. injection E as <-.
      destruct (c_and_shape l r) as [E|(_ & I1 & I2)]; [rewrite E in I; discriminate|]. cbn. now rewrite (IHf l), (IHg r).
    - cbn in C. apply andb_true_iff in C. destruct C as [C1 C2]. cbn. now rewrite !plain_mentions.
  Qed.

  Lemma truth_and rho f g : truth rho (GAnd f g) true -> truth rho f true /\ truth rho g true.
  Proof. intros H. inversion H as [| | | |f' g' p q Hp Hq E1 E2|]; subst. apply andb_true_iff in E2. destruct E2 as [-> ->]. auto. Qed.
  Lemma truth_or rho f g : truth rho (GOr f g) true -> (truth rho f true /\ exists b : bool, truth rho g b) \/ (truth rho g true /\ exists b : bool, truth rho f b).
  Proof. intros H. inversion H as [| | | | |f' g' p q Hp Hq E1 E2]; subst. apply orb_true_iff in E2. destruct E2 as [F|F]; [left|right]; (split; [rewrite F, ?orb_true_r in *; assumption|eexists; eassumption]). Qed.
  Lemma truth_rel rho (R : rel) (s t : term O) : truth rho (GRel R s t) true -> exists u v, tval rho s u /\ tval rho t v /\ rel_holds R u v = true.
  Proof. intros H. inversion H; subst; eauto 6. Qed.

  Lemma leaf_keep (R : rel) (s t : term O) X rho (cons opt : bool) : legal (GRel R s t) -> inside rho (GRel R s t) -> el X (rho x) -> truth rho (GRel R s t) true ->
    exists Z, dconstrain dbg x X (rel_value R s t) cons opt = Ret (Z, cons || mentions x (GRel R s t)) /\ el Z (rho x).
  Proof.
    intros L [I1 I2] HX T. destruct (truth_rel _ _ _ _ T) as (u & v & Hu & Hv & Hr).
    assert (Xu : tmentions x s = true -> u = rho x).
    { destruct s; cbn in *; [intros E; apply Nat.eqb_eq in E; now subst|discriminate]. }
    assert (Xv : tmentions x t = true -> v = rho x).
    { destruct t; cbn in *; [intros E; apply Nat.eqb_eq in E; now subst|discriminate]. }
    destruct (rel_keep R s t X u v cons opt L (tval_tel rho s u I1 Hu) (tval_tel rho t v I2 Hv) Hr) as (Z & E & K1 & K2 & K3 & K4).
    { intros H. now rewrite (Xu H). } { intros H. now rewrite (Xv H). }
    exists Z. split; [exact E|].
    destruct (tmentions x s) eqn:Es, (tmentions x t) eqn:Et.
    - rewrite <- (Xu eq_refl). destruct (K3 eq_refl eq_refl) as [K|K]; [exact K|]. now rewrite (Xu eq_refl), <- (Xv eq_refl).
    - rewrite <- (Xu eq_refl). auto.
    - rewrite <- (Xv eq_refl). auto.
    - now rewrite (K4 eq_refl eq_refl).
  Qed.

  Lemma and_keep X (vl vr : ivl O) (w : O) : el vl w -> el vr w ->
    expects_debug dbg (o_le (lo vr) (hi vl) && o_le (lo vl) (hi vr)) = Ret tt
    /\ exists Z, mk (omax (lo vl) (lo vr)) (omin (hi vl) (hi vr)) = Ret Z /\ el Z w.
  Proof.
    intros [A1 A2] [B1 B2]. split; [apply expects_debug_true; clear - HO A1 A2 B1 B2; ord HO|].
    assert (K1 : o_le (omax (lo vl) (lo vr)) w = true) by (now apply omax_lub).
    assert (K2 : o_le w (omin (hi vl) (hi vr)) = true) by (now apply omin_glb).
    rewrite (mk_proper HO) by (clear - HO K1 K2; ord HO). eexists. split; [reflexivity|]. split; assumption.
  Qed.

  (** ** C31: conjunctions *)
  Lemma conj_keep f c X rho (cons opt : bool) : legal f -> conjunctive f = true -> build dbg f = Ret c -> inside rho f -> el X (rho x) -> truth rho f true ->
    exists Z, dconstrain dbg x X c cons opt = Ret (Z, cons || mentions x f) /\ el Z (rho x).
  Proof.
    revert c cons. induction f as [b|s|r s t|f IH|f IHf g IHg|f IHf g IHg]; intros c cons L C E I HX T.
    - injection E as <-. cbn. rewrite orb_false_r. eauto.
    - injection E as <-. cbn. rewrite orb_false_r. eauto.
    - rewrite (rel_build HO dbg r s t L) in E. injection E as <-. now apply leaf_keep.
    - cbn in C. rewrite (dc_plain X c) by (eapply build_plain; [exact E|exact C]). cbn. rewrite (plain_mentions f C), orb_false_r. eauto.
    - cbn in C. apply andb_true_iff in C. destruct C as [C1 C2]. pose proof L as L0. apply legal_and in L. destruct L as [L1 L2].
      pose proof (truth_possible rho _ _ I T) as Po. destruct I as [I1 I2]. pose proof T as T0. apply truth_and in T. destruct T as [T1 T2].
      pose proof E as E0. cbn in E. destruct (build dbg f) as [l| | | |] eqn:El; try discriminate. destruct (build dbg g) as [r| | | |] eqn:Er; try discriminate.
      cbn in E. injection E as <-. destruct (c_and_shape l r) as [Es|(In & Il & Ir)].
      + destruct (build_ok HO dbg _ L0) as (c' & Ec' & W & M). rewrite E0 in Ec'. injection Ec' as <-. rewrite Es in M. rewrite Es. cbn [dconstrain].
        destruct (IHf l cons L1 C1 eq_refl I1 HX T1) as (vl & Dl & Kl). rewrite Dl. cbn [bind].
        destruct (IHg r (cons || mentions x f) L2 C2 eq_refl I2 HX T2) as (vr & Dr & Kr). rewrite Dr. cbn [bind].
        assert (Mt : bcontains (and_value l r) true = true) by (apply bmember_iff; now apply (M true)). rewrite Mt.
        destruct (and_keep X vl vr (rho x) Kl Kr) as [E1 (Z & E2 & K)]. rewrite E1. cbn [bind]. rewrite E2. cbn [bind].
        exists Z. split; [cbn [mentions]; now rewrite orb_assoc|exact K].
      + rewrite (dc_plain X _ _ _ In). cbn. rewrite (not_cond_mentions f l), (not_cond_mentions g r) by assumption. rewrite orb_false_r. eauto.
    - cbn in C. assert (P : plain (GOr f g) = true) by exact C. rewrite (dc_plain X c) by (eapply build_plain; [exact E|exact P]).
      rewrite (plain_mentions _ P), orb_false_r. eauto.
  Qed.

  (** ** C33: disjunctions *)
  Lemma occurs_el X rho f : occurs_as x X f -> inside rho f -> mentions x f = true -> el X (rho x).
  Proof.
    unfold occurs_as, inside. induction f as [b|s|r s t|f IH|f IHf g IHg|f IHf g IHg]; cbn; try discriminate; auto.
    - intros [O1 O2] [I1 I2] H. apply orb_true_iff in H. destruct H as [H|H].
      + destruct s; [|discriminate H]. cbn in H. apply Nat.eqb_eq in H. rewrite (O1 H) in I1. now subst.
      + destruct t; [|discriminate H]. cbn in H. apply Nat.eqb_eq in H. rewrite (O2 H) in I2. now subst.
    - intros [O1 O2] [I1 I2] H. apply orb_true_iff in H. destruct H; auto.
    - intros [O1 O2] [I1 I2] H. apply orb_true_iff in H. destruct H; auto.
  Qed.
  Lemma omax_same (w : O) : omax w w = w. Proof. unfold omax. now destruct (o_lt w w). Qed.
  Lemma omin_same (w : O) : omin w w = w. Proof. unfold omin. now destruct (o_lt w w). Qed.
  Lemma ivl_eta X : Ivl (lo X) (hi X) = X. Proof. now destruct X. Qed.

  Lemma tame_unmentioned f c X (inor cons opt : bool) : legal f -> proper X -> tame x inor f -> mentions x f = false -> build dbg f = Ret c ->
    dconstrain dbg x X c cons opt = Ret (X, cons).
  Proof.
    intros L PX. revert c cons. induction f as [b|s|r s t|f IH|f IHf g IHg|f IHf g IHg]; intros c cons T N E.
    - now injection E as <-.
    - now injection E as <-.
    - rewrite (rel_build HO dbg r s t L) in E. injection E as <-.
      cbn in N. apply orb_false_iff in N. destruct N as [N1 N2]. rewrite <- !op_is_term in *.
      destruct r; cbn [rel_value dconstrain]; rewrite ?N1, ?N2; reflexivity.
    - cbn in T. apply dc_plain. eapply build_plain; [exact E|exact T].
    - cbn in N. apply orb_false_iff in N. destruct N as [N1 N2]. destruct T as (T1 & T2 & _). apply legal_and in L. destruct L as [L1 L2].
      cbn in E. destruct (build dbg f) as [l| | | |] eqn:El; try discriminate. destruct (build dbg g) as [r| | | |] eqn:Er; try discriminate.
      cbn in E. injection E as <-. destruct (c_and_shape l r) as [Es|(In & Il & Ir)]; [|now apply dc_plain].
      rewrite Es. cbn [dconstrain]. rewrite (IHf L1 l cons T1 N1 eq_refl). cbn [bind]. rewrite (IHg L2 r cons T2 N2 eq_refl). cbn [bind].
      destruct (bcontains (and_value l r) true); [|reflexivity].
      unfold proper in PX. rewrite expects_debug_true by (now rewrite PX). cbn [bind]. rewrite omax_same, omin_same, (mk_proper HO) by exact PX.
      cbn. now rewrite ivl_eta.
    - destruct T as [T|(T & _)].
      + apply dc_plain. eapply build_plain; [exact E|exact T].
      + cbn in N. rewrite T in N. discriminate.
  Qed.

  Definition total_at (inor : bool) X f c : Prop := forall cons,
    inor = true -> exists Z, dconstrain dbg x X c cons true = Ret (Z, cons || mentions x f) /\ proper Z.
  Definition keeps_at X f c : Prop := forall rho cons opt, inside rho f -> el X (rho x) -> truth rho f true ->
    exists Z, dconstrain dbg x X c cons opt = Ret (Z, cons || mentions x f) /\ el Z (rho x).

  Lemma el_proper X (w : O) : el X w -> proper X.
  Proof. intros H. apply (proper_iff HO). eauto. Qed.

  Lemma cpossible_iff c : cpossible c = bcontains (cset c) true.
  Proof. destruct c; try reflexivity. destruct b; reflexivity. Qed.

  Lemma tame_keep f c X (inor : bool) : legal f -> proper X -> tame x inor f -> occurs_as x X f -> build dbg f = Ret c ->
    keeps_at X f c /\ total_at inor X f c.
  Proof.
    intros L PX. revert c inor. induction f as [b|s|r s t|f IH|f IHf g IHg|f IHf g IHg]; intros c inor T Oc E.
    - injection E as <-. split; [intros rho cons opt _ HX _|intros cons _]; cbn; rewrite orb_false_r; eauto.
    - injection E as <-. split; [intros rho cons opt _ HX _|intros cons _]; cbn; rewrite orb_false_r; eauto.
    - rewrite (rel_build HO dbg r s t L) in E. injection E as <-. split.
      + intros rho cons opt I HX Tr. now apply leaf_keep.
      + intros cons _. destruct (possible_dec (GRel r s t) true L) as [P|P].
        * apply possible_rel in P. destruct P as (u & v & Hu & Hv & Hr). destruct Oc as [O1 O2].
          assert (Xu : tmentions x s = true -> el X u).
          { destruct s; [|discriminate]. cbn. intros H. apply Nat.eqb_eq in H. now rewrite <- (O1 H). }
          assert (Xv : tmentions x t = true -> el X v).
          { destruct t; [|discriminate]. cbn. intros H. apply Nat.eqb_eq in H. now rewrite <- (O2 H). }
          destruct (rel_keep r s t X u v cons true L Hu Hv Hr Xu Xv) as (Z & E & K1 & K2 & K3 & K4). exists Z. split; [exact E|].
          destruct (tmentions x s), (tmentions x t); [destruct (K3 eq_refl eq_refl)| | |rewrite (K4 eq_refl eq_refl)]; eauto using el_proper.
        * rewrite (rel_impossible r s t X cons true L P). cbn [negb]. rewrite andb_false_r. eauto.
    - cbn in T. split; [intros rho cons opt _ HX _|intros cons _]; rewrite (dc_plain X c) by (eapply build_plain; [exact E|exact T]); cbn;
        rewrite (plain_mentions f T), orb_false_r; eauto.
    - destruct T as (T1 & T2 & T3). pose proof L as L0. apply legal_and in L. destruct L as [L1 L2]. destruct Oc as [O1 O2].
      pose proof E as E0. cbn in E. destruct (build dbg f) as [l| | | |] eqn:El; try discriminate. destruct (build dbg g) as [r| | | |] eqn:Er; try discriminate.
      cbn in E. injection E as <-. destruct (build_ok HO dbg _ L0) as (c' & Ec' & W & M). rewrite E0 in Ec'. injection Ec' as <-.
      destruct (IHf L1 l inor T1 O1 eq_refl) as [Kf Tf], (IHg L2 r inor T2 O2 eq_refl) as [Kg Tg].
      assert (Kp : keeps_at X (GAnd f g) (c_and l r)).
      { intros rho cons opt I HX Tr. pose proof (truth_possible rho _ _ I Tr) as Po. destruct I as [I1 I2]. apply truth_and in Tr. destruct Tr as [Tr1 Tr2].
        destruct (Kf rho cons opt I1 HX Tr1) as (vl & Dl & Kl). destruct (Kg rho (cons || mentions x f) opt I2 HX Tr2) as (vr & Dr & Kr).
        destruct (c_and_shape l r) as [Es|(In & Il & Ir)].
        - rewrite Es in M. rewrite Es. cbn [dconstrain]. rewrite Dl. cbn [bind]. rewrite Dr. cbn [bind].
          assert (Mt : bcontains (and_value l r) true = true) by (apply bmember_iff; now apply (M true)). rewrite Mt.
          destruct (and_keep X vl vr (rho x) Kl Kr) as [E1 (Z & E2 & K)]. rewrite E1. cbn [bind]. rewrite E2. cbn [bind].
          exists Z. split; [cbn; now rewrite orb_assoc|exact K].
        - rewrite (dc_plain X _ _ _ In). rewrite (dc_plain X _ _ _ Il) in Dl. rewrite (dc_plain X _ _ _ Ir) in Dr. exists X. split; [|exact HX].
          injection Dl as _ Dl. injection Dr as _ Dr. cbn [mentions]. now rewrite orb_assoc, <- Dr, <- Dl. }
      split; [exact Kp|]. intros cons Hi.
      destruct (mentions x (GAnd f g)) eqn:Em.
      2:{ rewrite orb_false_r. exists X. split; [|exact PX].
          apply (tame_unmentioned (GAnd f g) (c_and l r) X inor cons true L0 PX); [cbn; auto|exact Em|exact E0]. }
      destruct (possible_dec _ true L0) as [P|P].
      + destruct (T3 Hi P) as (rho & I & Tr). replace (cons || true) with (cons || mentions x (GAnd f g)) by now rewrite Em.
        destruct (Kp rho cons true I (occurs_el X rho (GAnd f g) (conj O1 O2) I Em) Tr) as (Z & D & K). exists Z. eauto using el_proper.
      + destruct (c_and_shape l r) as [Es|(In & Il & Ir)].
        * rewrite Es in M. rewrite Es. cbn [dconstrain].
          destruct (Tf cons Hi) as (vl & Dl & _). rewrite Dl. cbn [bind]. destruct (Tg (cons || mentions x f) Hi) as (vr & Dr & _). rewrite Dr. cbn [bind].
          assert (Mt : bcontains (and_value l r) true = false).
          { destruct (bcontains (and_value l r) true) eqn:Eb; [|reflexivity]. exfalso. apply P, (M true). cbn [cset]. now apply bmember_iff. }
          rewrite Mt. exists X. split; [|exact PX]. replace (cons || true) with (cons || mentions x (GAnd f g)) by now rewrite Em. cbn. now rewrite orb_assoc.
        * destruct (Tf cons Hi) as (vl & Dl & _). destruct (Tg (cons || mentions x f) Hi) as (vr & Dr & _).
          rewrite (dc_plain X _ _ _ In). rewrite (dc_plain X _ _ _ Il) in Dl. rewrite (dc_plain X _ _ _ Ir) in Dr. exists X. split; [|exact PX].
          injection Dl as _ Dl. injection Dr as _ Dr. replace (cons || true) with (cons || mentions x (GAnd f g)) by now rewrite Em. cbn [mentions]. now rewrite orb_assoc, <- Dr, <- Dl.
    - destruct T as [T|(M1 & M2 & T1 & T2)].
      { assert (P : plain (GOr f g) = true) by exact T. pose proof (plain_mentions _ P) as Pm.
        split; [intros rho cons opt _ HX _|intros cons _]; rewrite (dc_plain X c) by (eapply build_plain; [exact E|exact P]);
          rewrite Pm, orb_false_r; eauto. }
      pose proof L as L0. apply legal_or in L. destruct L as [L1 L2]. destruct Oc as [O1 O2].
      pose proof E as E0. cbn in E. destruct (build dbg f) as [l| | | |] eqn:El; try discriminate. destruct (build dbg g) as [r| | | |] eqn:Er; try discriminate.
      cbn in E. injection E as <-. destruct (build_ok HO dbg _ L0) as (c' & Ec' & W & M). rewrite E0 in Ec'. injection Ec' as <-.
      destruct (build_ok HO dbg _ L1) as (l' & El' & _ & Ml). rewrite El in El'. injection El' as <-.
      destruct (build_ok HO dbg _ L2) as (r' & Er' & _ & Mr). rewrite Er in Er'. injection Er' as <-.
      destruct (IHf L1 l true T1 O1 eq_refl) as [Kf Tf], (IHg L2 r true T2 O2 eq_refl) as [Kg Tg].
      assert (Il : is_cond l = true).
      { destruct (is_cond l) eqn:J; [reflexivity|]. exfalso. destruct (Tf false eq_refl) as (vl & Dl & _). rewrite (dc_plain X _ _ _ J), M1 in Dl. discriminate. }
      assert (Es : c_or l r = COr (or_value l r) l r) by (unfold c_or; now rewrite Il). rewrite Es in M |- *. cbn [cset] in M.
      destruct (Tf false eq_refl) as (vl & Dl & Pl), (Tg false eq_refl) as (vr & Dr & Pr). rewrite M1 in Dl. rewrite M2 in Dr. cbn [orb] in Dl, Dr.
      assert (Em : mentions x (GOr f g) = true) by (cbn; now rewrite M1).
      assert (Hull : exists Z, mk (omin (lo vl) (lo vr)) (omax (hi vl) (hi vr)) = Ret Z /\ proper Z /\ subset vl Z /\ subset vr Z).
      { unfold proper in Pl, Pr.
        assert (A1 : ok (lo vl)) by (clear - HO Pl; ord HO). assert (A2 : ok (hi vl)) by (clear - HO Pl; ord HO).
        assert (A3 : ok (lo vr)) by (clear - HO Pr; ord HO). assert (A4 : ok (hi vr)) by (clear - HO Pr; ord HO).
        pose proof (omin_l HO _ _ A1 A3) as B1. pose proof (omin_r HO _ _ A1 A3) as B2. pose proof (omax_l HO _ _ A2 A4) as B3. pose proof (omax_r HO _ _ A2 A4) as B4.
        assert (Pz : o_le (omin (lo vl) (lo vr)) (omax (hi vl) (hi vr)) = true) by (clear - HO B1 B3 Pl; ord HO).
        rewrite (mk_proper HO) by exact Pz. eexists. split; [reflexivity|]. split; [exact Pz|].
        split; intros w [W1 W2]; split; cbn [lo hi]; [clear - HO B1 W1; ord HO|clear - HO B3 W2; ord HO|clear - HO B2 W1; ord HO|clear - HO B4 W2; ord HO]. }
      destruct Hull as (Zh & Eh & Ph & Sl & Sr).
      split.
      + intros rho cons opt I HX Tr. pose proof (truth_possible rho _ _ I Tr) as Po. destruct I as [I1 I2].
        cbn [dconstrain]. rewrite Dl. cbn [bind]. rewrite Dr. cbn [bind]. cbn [orb andb]. rewrite !cpossible_iff.
        assert (Mt : bcontains (or_value l r) true = true) by (apply bmember_iff; now apply (M true)). rewrite Mt. cbn [orb expects bind].
        rewrite Em, orb_true_r.
        apply truth_or in Tr. destruct Tr as [[Tr _]|[Tr _]].
        * destruct (Kf rho false true I1 HX Tr) as (vl' & Dl' & Kl). rewrite Dl in Dl'. injection Dl' as <- _.
          assert (Pt : bcontains (cset l) true = true) by (apply bmember_iff; apply Ml; now apply (truth_possible rho)). rewrite Pt.
          destruct (bcontains (cset r) true); [rewrite Eh; cbn; exists Zh; split; [reflexivity|now apply Sl]|exists vl; auto].
        * destruct (Kg rho false true I2 HX Tr) as (vr' & Dr' & Kr). rewrite Dr in Dr'. injection Dr' as <- _.
          assert (Pt : bcontains (cset r) true = true) by (apply bmember_iff; apply Mr; now apply (truth_possible rho)). rewrite Pt.
          destruct (bcontains (cset l) true); [rewrite Eh; cbn; exists Zh; split; [reflexivity|now apply Sr]|exists vr; auto].
      + intros cons _. cbn [dconstrain]. rewrite Dl. cbn [bind]. rewrite Dr. cbn [bind]. rewrite orb_true_r. cbn [orb andb expects bind].
        rewrite Em, orb_true_r. destruct (cpossible l), (cpossible r); [rewrite Eh; cbn; exists Zh; auto|exists vl; auto|exists vr; auto|exists X; auto].
  Qed.
End Cond.
